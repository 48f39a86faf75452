(** Concatenating signals. *)

From Coq Require Import String ZArith List Bool Lia ZifyBool Sorting.Permutation.
From Verif.Model Require Import Py Numpy Functions Signal Spectrum Merge Concatenate.
From Verif.Spec Require Import TimeSpec MergeSpec ConcatSpec.
From Verif.Proofs Require Import PyFacts NumpyFacts SignalAlgebra SignalShape MergeOrder MergeFacts MergeHistory.
Import ListNotations.
Open Scope Z_scope.

(** ** Sorting *)
Section Sort.
Context {D : Type}.
Implicit Types (l : list ((Z * Z) * D)) (x : (Z * Z) * D).

Lemma insert_perm x l : Permutation (insert_span x l) (x :: l).
Proof.
  induction l as [|y l IH]; cbn; auto. destruct (span_le (fst x) (fst y)); auto.
  rewrite IH. apply perm_swap.
Qed.
Lemma sort_perm l : Permutation (sort_spans l) l.
Proof. induction l as [|x l IH]; cbn; auto. rewrite insert_perm. auto. Qed.

(** The first element of the sorted list has the least start. *)
Definition least x l := forall y, In y l -> fst (fst x) <= fst (fst y).
Definition head_least l := match l with [] => True | x :: _ => least x l end.
Lemma insert_least x l : head_least l -> head_least (insert_span x l).
Proof.
  intros H. destruct l as [|y l]; cbn.
  - intros z [<-|[]]. lia.
  - unfold span_le. destruct (_ || _) eqn:E; cbn.
    + intros z [<-|I]; [lia|]. specialize (H z I). lia.
    + intros z I. destruct I as [<-|I]; [lia|].
      apply (Permutation_in _ (insert_perm x l)) in I. destruct I as [<-|I]; [lia|]. apply H. cbn; auto.
Qed.
Lemma sort_least l : head_least (sort_spans l).
Proof. induction l; cbn; [exact I|]. apply insert_least; auto. Qed.

Lemma spans_placed (offset length : D -> Z) (data : list D) : forall index,
  spans offset length index data = map (fun p => ((fst p, fst p + length (snd p)), snd p)) (placed offset length index data).
Proof. induction data as [|s t IH]; intros index; cbn; auto. f_equal. apply IH. Qed.
Lemma placed_In (offset length : D -> Z) (data : list D) : forall index p, In p (placed offset length index data) -> In (snd p) data.
Proof. induction data as [|s t IH]; intros index p; cbn; [auto|]. intros [<-|I]; cbn; eauto. Qed.
Lemma zlen_placed (offset length : D -> Z) (data : list D) : forall index, zlen (placed offset length index data) = zlen data.
Proof. induction data as [|s t IH]; intros index; cbn; auto. now rewrite !zlen_cons, IH. Qed.
End Sort.

Section Concat.
Context {A : Type}.
Variable O : ops A.
Variable junk : Z -> Z -> A.
Hypothesis Add0 : forall x, o_add O (o_zero O) x = x.
Hypothesis AddC : forall x y, o_add O x y = o_add O y x.
Hypothesis AddA : forall x y z, o_add O x (o_add O y z) = o_add O (o_add O x y) z.

Lemma add_r0 x : o_add O x (o_zero O) = x.
Proof. now rewrite AddC. Qed.

Lemma sum_perm l m : Permutation l m -> sum O l = sum O m.
Proof.
  intros P. unfold sum. induction P as [|x l m P IH|x y l|l m n P1 IH1 P2 IH2]; cbn [fold_right]; auto; try congruence.
Qed.
Lemma sum_snoc l x : sum O (l ++ [x]) = o_add O (sum O l) x.
Proof. rewrite (sum_perm (l ++ [x]) (x :: l)); [cbn; apply AddC|]. symmetry. apply Permutation_cons_append. Qed.
Lemma sum_zero l : (forall x, In x l -> x = o_zero O) -> sum O l = o_zero O.
Proof. induction l as [|x l IH]; intros H; auto. change (sum O (x :: l)) with (o_add O x (sum O l)). rewrite (H x), IH, Add0; cbn; auto. intros; apply H; cbn; auto. Qed.

(** A data set with its span. *)
Definition val (c t : Z) (x : (Z * Z) * signal A) : A := contribution O c t (fst (fst x), snd x).
Definition S (P : list ((Z * Z) * signal A)) (c t : Z) : A := sum O (map (val c t) P).

Definition good (N mo top : Z) (x : (Z * Z) * signal A) : Prop :=
  wf_signal (snd x) /\ snd (fst x) = fst (fst x) + length (snd x) /\ mo <= fst (fst x) /\ snd (fst x) <= top /\ count (snd x) <= N.

Lemma val_in N mo top x c t : good N mo top x -> 0 <= c < count (snd x) -> fst (fst x) <= t < snd (fst x) ->
  el (channels (snd x)) c (t - fst (fst x)) = Some (val c t x).
Proof.
  intros (W & E & _) C T. unfold val, contribution, at_time, begins. cbn [fst snd].
  replace (t - fst (fst x) + offset (snd x) - offset (snd x)) with (t - fst (fst x)) by lia.
  destruct (el_in (channels (snd x)) c (t - fst (fst x)) (proj1 W)) as [a Ea]; auto.
  - unfold length in E. lia.
  - rewrite Ea. reflexivity.
Qed.
Lemma val_out N mo top x c t : good N mo top x -> ~ (0 <= c < count (snd x) /\ fst (fst x) <= t < snd (fst x)) -> val c t x = o_zero O.
Proof.
  intros (W & E & _) C. unfold val, contribution, at_time, begins. cbn [fst snd].
  rewrite el_out; auto; [apply W|]. unfold length, count in *. lia.
Qed.

(** The array is correct for the processed data sets [P] up to the column [last]. *)
Definition correct (N L mo : Z) (P : list ((Z * Z) * signal A)) (last : Z) (m : arr A) : Prop :=
  wf m /\ nrows m = N /\ cols m = L /\ 0 <= last <= L /\
  forall c j, 0 <= c < N -> 0 <= j < last -> el m c j = Some (S P c (j + mo)).

Lemma S_beyond N mo top P c t : Forall (good N mo top) P -> (forall x, In x P -> snd (fst x) <= t) -> S P c t = o_zero O.
Proof.
  intros F H. apply sum_zero. intros x I. apply in_map_iff in I as (y & <- & I). rewrite Forall_forall in F.
  eapply val_out; eauto. specialize (H y I). lia.
Qed.
Lemma S_snoc P x c t : S (P ++ [x]) c t = o_add O (S P c t) (val c t x).
Proof. unfold S. rewrite map_app. apply sum_snoc. Qed.

(** Copying a data set behind the correct part. *)
Lemma copy_ok N mo top P x last m (d : arr A) :
  Forall (good N mo top) P -> good N mo top x -> wf m -> nrows m = N -> cols m = top - mo -> 0 <= last <= top - mo ->
  (forall y, In y P -> snd (fst y) - mo <= last) ->
  fst (fst x) - mo <= last -> last <= snd (fst x) - mo ->
  wf d -> nrows d = count (snd x) -> cols d = snd (fst x) - mo - last ->
  (forall c j, 0 <= c < count (snd x) -> 0 <= j < cols d -> el d c j = Some (val c (j + last + mo) x)) ->
  (forall c j, 0 <= c < N -> 0 <= j < last -> el m c j = Some (S (P ++ [x]) c (j + mo))) ->
  exists m', bind (set_block m (between 0 (nrows d)) (between last (snd (fst x) - mo)) d)
       (fun m => if nrows d <? N then set_block m (from (nrows d)) (between last (snd (fst x) - mo)) (scalar (o_zero O)) else Ok m) = Ok m'
    /\ correct N (top - mo) mo (P ++ [x]) (snd (fst x) - mo) m'.
Proof.
  intros F G W HN HC HL HP X1 X2 Wd Nd Cd Hd Hm.
  pose proof G as (Wx & Ex & Gx1 & Gx2 & Gx3).
  pose proof (nrows_nonneg d) as Nd0.
  destruct (set_block_ok m (between 0 (nrows d)) (between last (snd (fst x) - mo)) d) as (m1 & -> & W1 & N1 & C1 & H1); auto.
  { left. bnd. lia. }
  { left. bnd. lia. }
  cbn [bind]. bnd_in H1.
  assert (V : forall c j, 0 <= c < N -> last <= j < snd (fst x) - mo -> S (P ++ [x]) c (j + mo) = val c (j + mo) x).
  { intros c j Cc J. rewrite S_snoc, (S_beyond N mo top); auto. intros y I. specialize (HP y I). lia. }
  assert (E1 : forall c j, 0 <= c < nrows d -> last <= j < snd (fst x) - mo -> el m1 c j = Some (val c (j + mo) x)).
  { intros c j Cc J. rewrite H1. iftrue.
    replace (if nrows d =? 1 then 0 else c - 0) with c by zcases.
    replace (if cols d =? 1 then 0 else j - last) with (j - last) by zcases.
    rewrite Hd by lia. do 2 f_equal. lia. }
  destruct (Z.ltb_spec (nrows d) N) as [Lt|Ge].
  - destruct (set_scalar_ok m1 (from (nrows d)) (between last (snd (fst x) - mo)) (o_zero O) W1) as (m2 & -> & W2 & N2 & C2 & H2).
    bnd_in H2. eexists; split; [reflexivity|]. split; [auto|]. split; [lia|]. split; [lia|]. split; [lia|].
    intros c j Cc J. rewrite H2. destruct (Z.lt_ge_cases j last) as [Jl|Jl].
    + iffalse. rewrite H1. iffalse. apply Hm; lia.
    + rewrite V by lia. destruct (Z.lt_ge_cases c (nrows d)).
      * iffalse. apply E1; lia.
      * iftrue. f_equal. symmetry. eapply val_out; eauto. lia.
  - eexists; split; [reflexivity|]. split; [auto|]. split; [lia|]. split; [lia|]. split; [lia|].
    intros c j Cc J. destruct (Z.lt_ge_cases j last) as [Jl|Jl].
    + rewrite H1. iffalse. apply Hm; lia.
    + rewrite V by lia. apply E1; lia.
Qed.

(** Adding a part of a data set within the correct part. *)
Lemma add_ok N mo top P x last m (d : arr A) stop :
  good N mo top x -> correct N (top - mo) mo P last m ->
  fst (fst x) - mo <= stop <= last -> snd (fst x) - mo <= stop \/ stop = last ->
  wf d -> nrows d = count (snd x) -> cols d = stop - (fst (fst x) - mo) ->
  (forall c j, 0 <= c < count (snd x) -> 0 <= j < cols d -> el d c j = Some (val c (j + fst (fst x)) x)) ->
  exists m', add_block O m (between 0 (nrows d)) (between (fst (fst x) - mo) stop) d = Ok m'
    /\ wf m' /\ nrows m' = N /\ cols m' = top - mo /\
    (forall c j, 0 <= c < N -> 0 <= j < last -> el m' c j = Some (S (P ++ [x]) c (j + mo))).
Proof.
  intros G (W & HN & HC & HL & Hm) X1 X2 Wd Nd Cd Hd.
  pose proof G as (Wx & Ex & Gx1 & Gx2 & Gx3). pose proof (nrows_nonneg d) as Nd0.
  unfold add_block.
  set (a := fst (fst x) - mo) in *.
  set (b := block m (between 0 (nrows d)) (between a stop)).
  assert (Nb : nrows b = nrows d) by (unfold b; rewrite nrows_block; bnd; lia).
  assert (Cb : cols b = stop - a) by (unfold b; rewrite cols_block; bnd; lia).
  assert (Eb : forall c j, 0 <= c < nrows d -> 0 <= j < stop - a -> el b c j = Some (S P c (j + a + mo))).
  { intros c j Cc J. unfold b. rewrite el_block by auto. bnd. iftrue. rewrite Hm by lia. do 2 f_equal; lia. }
  destruct (ufunc2_into_ok (o_add O) b d m (between 0 (nrows d)) (between a stop)) as (m' & -> & W' & N' & C' & H'); auto;
    try (left; bnd; lia).
  { apply wf_block; auto. }
  bnd_in H'. exists m'. split; [auto|]. split; [auto|]. split; [lia|]. split; [lia|].
  intros c j Cc J. rewrite H', S_snoc.
  destruct (Z.lt_ge_cases c (nrows d)) as [Cd'|Cd'].
  - destruct (Z.lt_ge_cases j a) as [Ja|Ja]; [|destruct (Z.lt_ge_cases j stop) as [Js|Js]].
    + iffalse. rewrite Hm by lia. rewrite (val_out N mo top x), add_r0; auto. lia.
    + iftrue. rewrite Nb, Cb.
      replace (if nrows d =? 1 then 0 else c - 0) with c by zcases.
      replace (if stop - a =? 1 then 0 else j - a) with (j - a) by zcases.
      replace (if cols d =? 1 then 0 else j - a) with (j - a) by zcases.
      rewrite Eb, Hd by lia. do 2 f_equal; [f_equal; lia|f_equal; lia].
    + iffalse. rewrite Hm by lia. rewrite (val_out N mo top x), add_r0; auto. lia.
  - iffalse. rewrite Hm by lia. rewrite (val_out N mo top x), add_r0; auto. lia.
Qed.

Lemma step_ok N mo top P x prev last0 last m :
  Forall (good N mo top) P -> good N mo top x -> In prev P ->
  last = Z.max last0 (snd (fst prev) - mo) ->
  (forall y, In y P -> snd (fst y) - mo <= last) ->
  correct N (top - mo) mo P last m ->
  exists m', concatenate_step O mo N (m, last0) (x, prev) = Ok (m', last) /\
    correct N (top - mo) mo (P ++ [x]) (Z.max last (snd (fst x) - mo)) m'.
Proof.
  intros F G Ip L HP C. pose proof C as (W & HN & HC & HL & Hm). pose proof G as (Wx & Ex & Gx1 & Gx2 & Gx3).
  pose proof (wf_length _ Wx) as Lx.
  destruct x as [[start stop] s]. destruct prev as [[pstart pstop] ps]. cbn [fst snd] in *.
  unfold concatenate_step. rewrite <- L.
  assert (Es : forall c j, 0 <= c < count s -> 0 <= j < length s -> el (channels s) c j = Some (val c (j + start) ((start, stop), s))).
  { intros c j Cc J. rewrite <- (val_in N mo top _ c (j + start) G); cbn [fst snd]; try lia. f_equal. lia. }
  destruct (Z.ltb_spec (start - mo) last) as [Ov|NOv].
  - destruct (Z.leb_spec (stop - mo) last) as [In|Out].
    + destruct (add_ok N mo top P ((start, stop), s) last m (channels s) (stop - mo)) as (m' & E & W' & N' & C' & H'); auto; cbn [fst snd]; try lia.
      * apply Wx.
      * fold (length s). lia.
      * replace (start - mo + cols (channels s)) with (stop - mo) by (fold (length s); lia).
        cbn [fst snd] in E. rewrite E. cbn [bind]. exists m'. split; auto.
        replace (Z.max last (stop - mo)) with last by lia. split; [auto|]. split; [auto|]. split; [auto|]. split; [lia|auto].
    + set (k := last - (start - mo)).
      assert (Ws : wf (channels s)) by apply Wx.
      assert (Ns : nrows (channels s) = count s) by reflexivity.
      assert (Cs : cols (channels s) = length s) by reflexivity.
      pose proof (nrows_nonneg (channels s)).
      destruct (add_ok N mo top P ((start, stop), s) last m (block (channels s) everything (between 0 k)) last) as (m1 & E & W1 & N1 & C1 & H1);
        auto; cbn [fst snd]; try lia.
      * apply wf_block; auto.
      * rewrite nrows_block. bnd. lia.
      * rewrite cols_block. bnd. lia.
      * rewrite cols_block. bnd. intros c j Cc J. rewrite el_block by auto. bnd. iftrue. rewrite !Z.add_0_r. apply Es; lia.
      * assert (NB : nrows (block (channels s) everything (between 0 k)) = count s) by (rewrite nrows_block; bnd; lia).
        rewrite NB in E. cbn [fst snd] in E. rewrite Ns, E. cbn [bind].
        assert (NB' : nrows (block (channels s) everything (from k)) = count s) by (rewrite nrows_block; bnd; lia).
        destruct (copy_ok N mo top P ((start, stop), s) last m1 (block (channels s) everything (from k))) as (m2 & E2 & C2); auto; cbn [fst snd]; try lia.
        -- apply wf_block; auto.
        -- rewrite cols_block. bnd. lia.
        -- rewrite cols_block. bnd. intros c j Cc J. rewrite el_block by auto. bnd. iftrue. rewrite Es by (unfold k in *; lia). do 2 f_equal; unfold k; lia.
        -- cbn [fst snd] in E2. rewrite NB' in E2.
           rewrite NB'. revert E2.
           destruct (set_block m1 (between 0 (count s)) (between last (stop - mo)) (block (channels s) everything (from k))) as [q|]; cbn [bind]; [|discriminate].
           intros ->. cbn [bind]. exists m2. split; auto. replace (Z.max last (stop - mo)) with (stop - mo) by lia. exact C2.
  - destruct (Z.ltb_spec last (start - mo)) as [Gap|NoGap].
    + destruct (set_scalar_ok m everything (between last (start - mo)) (o_zero O) W) as (m1 & -> & W1 & N1 & C1 & H1). cbn [bind].
      pose proof (nrows_nonneg m). bnd_in H1.
      destruct (copy_ok N mo top P ((start, stop), s) (start - mo) m1 (channels s)) as (m2 & E2 & C2); auto; cbn [fst snd]; try lia.
      * intros y I. specialize (HP y I). lia.
      * apply Wx.
      * fold (length s). lia.
      * fold (length s). intros c j Cc J. rewrite Es by lia. do 2 f_equal. lia.
      * intros c j Cc J. rewrite S_snoc, (val_out N mo top ((start, stop), s)), add_r0; auto; [|cbn; lia]. rewrite H1.
        destruct (Z.lt_ge_cases j last).
        -- iffalse. apply Hm; lia.
        -- iftrue. f_equal. symmetry. apply (S_beyond N mo top); auto. intros y I. specialize (HP y I). lia.
      * cbn [fst snd] in E2. revert E2. fold (count s).
        destruct (set_block m1 (between 0 (count s)) (between (start - mo) (stop - mo)) (channels s)) as [q|]; cbn [bind]; [|discriminate].
        intros ->. cbn [bind]. exists m2. split; auto. replace (Z.max last (stop - mo)) with (stop - mo) by lia. exact C2.
    + assert (EL : start - mo = last) by lia.
      destruct (copy_ok N mo top P ((start, stop), s) (start - mo) m (channels s)) as (m2 & E2 & C2); auto; cbn [fst snd]; try lia.
      * intros y I. specialize (HP y I). lia.
      * apply Wx.
      * fold (length s). lia.
      * fold (length s). intros c j Cc J. rewrite Es by lia. do 2 f_equal. lia.
      * intros c j Cc J. rewrite S_snoc, (val_out N mo top ((start, stop), s)), add_r0; auto; [|cbn; lia]. apply Hm; lia.
      * cbn [fst snd] in E2. revert E2. fold (count s).
        destruct (set_block m (between 0 (count s)) (between (start - mo) (stop - mo)) (channels s)) as [q|]; cbn [bind]; [|discriminate].
        intros ->. cbn [bind]. exists m2. split; auto. replace (Z.max last (stop - mo)) with (stop - mo) by lia. exact C2.
Qed.

Lemma loop_ok N mo top : forall others prev P last0 m,
  Forall (good N mo top) P -> Forall (good N mo top) others -> In prev P ->
  (forall y, In y P -> snd (fst y) - mo <= Z.max last0 (snd (fst prev) - mo)) ->
  correct N (top - mo) mo P (Z.max last0 (snd (fst prev) - mo)) m ->
  exists m' last' k, for_each (combine others (prev :: others)) (concatenate_step O mo N) (m, last0) = Ok (m', last') /\ correct N (top - mo) mo (P ++ others) k m' /\ forall y, In y (P ++ others) -> snd (fst y) - mo <= k.
Proof.
  induction others as [|x others IH]; intros prev P last0 m FP FO Ip HP C.
  - exists m, last0, (Z.max last0 (snd (fst prev) - mo)). rewrite app_nil_r. cbn. auto.
  - inversion FO as [|? ? Gx FO']; subst. cbn [combine for_each].
    destruct (step_ok N mo top P x prev last0 (Z.max last0 (snd (fst prev) - mo)) m) as (m1 & -> & C1); auto. cbn [bind].
    destruct (IH x (P ++ [x]) (Z.max last0 (snd (fst prev) - mo)) m1) as (m' & last' & k & E & C' & H'); auto.
    + apply Forall_app. auto.
    + apply in_app_iff. cbn; auto.
    + intros y I. apply in_app_iff in I as [I|[<-|[]]]; [|lia]. specialize (HP y I). lia.
    + rewrite E. exists m', last', k. rewrite <- app_assoc in C', H'. cbn in C', H'. auto.
Qed.

Theorem concatenate_ok data : 2 <= zlen data -> Forall wf_signal data ->
  exists r, concatenate_signals O junk data = Ok r /\ concatenated O data r.
Proof.
  intros L2 W. destruct data as [|first [|second rest]]; try (rewrite ?zlen_cons, ?zlen_nil in L2; lia).
  remember (first :: second :: rest) as data eqn:D.
  assert (Hd : concatenate_signals O junk data =
      let number_of_channels := zmaximum 0 (map count data) in
      match sort_spans (spans offset length 0 data) with
      | [] => Err IndexError
      | (((start, stop), d) :: others) as indices =>
          let offset := zminimum start (map (fun i => fst (fst i)) indices) in
          let len := zmaximum stop (map (fun i => snd (fst i)) indices) - offset in
          m <- allocate junk number_of_channels len ;;
          let c := between (start - offset) (stop - offset) in
          m <- set_block m (between 0 (nrows (channels d))) c (channels d) ;;
          m <- (if nrows (channels d) <? number_of_channels then
                  set_block m (from (nrows (channels d))) c (scalar (o_zero O))
                else Ok m) ;;
          st <- for_each (combine others indices) (concatenate_step O offset number_of_channels) (m, 0) ;;
          Ok (mk_signal (fst st) (sampling_rate first) offset (Some (concatenation_labels number_of_channels)))
      end) by (subst; reflexivity).
  rewrite Hd. clear Hd. cbv zeta.
  assert (First : zth data 0 = Some first) by (subst; reflexivity).
  assert (InFirst : In first data) by (subst; cbn; auto).
  clear D second rest.
  pose proof (sort_perm (spans offset length 0 data)) as Perm.
  pose proof (sort_least (spans offset length 0 data)) as Least.
  rewrite spans_placed in Perm at 2.
  set (tag := fun p : Z * signal A => (fst p, fst p + length (snd p), snd p)) in *.
  destruct (sort_spans (spans offset length 0 data)) as [|[[start stop] d] others].
  { apply Permutation_nil in Perm. apply (f_equal (@zlen _)) in Perm. rewrite zlen_map, zlen_placed, zlen_nil in Perm. lia. }
  cbv beta iota zeta.
  set (indices := ((start, stop), d) :: others) in *.
  set (N := zmaximum 0 (map count data)).
  set (mo := zminimum start (map (fun i => fst (fst i)) indices)).
  set (top := zmaximum stop (map (fun i => snd (fst i)) indices)).
  assert (Emo : mo = start).
  { unfold mo. destruct (zminimum_le (map (fun i => fst (fst i)) indices) start) as [H1 _].
    destruct (zminimum_in (map (fun i => fst (fst i)) indices) start) as [E|I]; auto.
    apply in_map_iff in I as (y & Ey & I). specialize (Least y I). cbn [fst] in Least. lia. }
  destruct (zmaximum_ge (map (fun i => snd (fst i)) indices) stop) as [T1 T2]. fold top in T1, T2.
  destruct (zmaximum_ge (map count data) 0) as [N1 N2]. fold N in N1, N2.
  assert (Good : forall x, In x indices -> good N mo top x).
  { intros x I. pose proof I as I'. apply (Permutation_in _ Perm) in I. apply in_map_iff in I as ([b s] & <- & I).
    assert (Is : In s data) by (apply placed_In in I; auto). rewrite Forall_forall in W.
    split; [auto|]. cbn [tag fst snd]. split; [auto|]. split.
    - rewrite Emo. apply (Least _ I').
    - split; [|apply N2, in_map; auto]. apply T2. apply in_map_iff. exists (tag (b, s)). auto. }
  assert (Gd : good N mo top ((start, stop), d)) by (apply Good; cbn; auto).
  pose proof Gd as (Wd & Ed & _ & Gt & Gc). cbn [fst snd] in Wd, Ed, Gt, Gc.
  pose proof (wf_length _ Wd) as Ld. pose proof (nrows_nonneg (channels d)) as Nd. fold (count d) in *.
  assert (Ends : forall y, In y indices -> snd (fst y) <= top).
  { intros y I. apply T2. apply in_map_iff. eauto. }
  destruct (allocate_ok junk N (top - mo)) as (m & -> & Wm & Nm & Cm); [lia|lia|]. cbn [bind].
  assert (Init : exists m', bind (set_block m (between 0 (count d)) (between (start - mo) (stop - mo)) (channels d))
       (fun m => if count d <? N then set_block m (from (count d)) (between (start - mo) (stop - mo)) (scalar (o_zero O)) else Ok m) = Ok m'
       /\ correct N (top - mo) mo [((start, stop), d)] (stop - mo) m').
  { destruct (copy_ok N mo top [] ((start, stop), d) 0 m (channels d)) as (m' & E & C); auto; cbn [fst snd]; try lia.
    - intros y [].
    - apply Wd.
    - fold (length d). lia.
    - fold (length d). intros c j Cc J. rewrite <- (val_in N mo top _ c (j + 0 + mo) Gd); cbn [fst snd]; try lia. f_equal. lia.
    - exists m'. cbn [fst snd] in E. replace (start - mo) with 0 by lia. auto. }
  destruct Init as (m1 & E1 & C1).
  destruct (set_block m (between 0 (count d)) (between (start - mo) (stop - mo)) (channels d)) as [q|]; [|discriminate E1].
  cbn [bind] in E1 |- *. rewrite E1. cbn [bind].
  destruct (loop_ok N mo top others ((start, stop), d) [((start, stop), d)] 0 m1) as (m' & last' & k & E & C' & H').
  - repeat constructor; apply Gd.
  - apply Forall_forall. intros; apply Good; cbn; auto.
  - cbn; auto.
  - intros y [<-|[]]. lia.
  - cbn [fst snd]. replace (Z.max 0 (stop - mo)) with (stop - mo) by lia. exact C1.
  - unfold indices. rewrite E. cbn [bind fst]. eexists; split; [reflexivity|].
    destruct C' as (W' & N' & Cl' & Hk & H). change ([((start, stop), d)] ++ others) with indices in H, H'.
    assert (Ek : k = top - mo).
    { destruct (zmaximum_in (map (fun i => snd (fst i)) indices) stop) as [E0|I]; [fold top in E0|fold top in I].
      - specialize (H' _ (or_introl eq_refl)). cbn [fst snd] in H'. lia.
      - apply in_map_iff in I as (y & Ey & I). specialize (H' y I). lia. }
    set (r := mk_signal m' (sampling_rate first) mo (Some (concatenation_labels N))).
    assert (Cr : count r = N) by auto. assert (Br : begins r = mo) by reflexivity.
    assert (Er : ends r = top) by (unfold ends, length, r; cbn [mk_signal channels offset]; lia).
    unfold concatenated. rewrite Cr, Br, Er.
    split; [apply mk_signal_wf; auto|]. split; [exists first; auto|].
    split.
    { intros c Hc. unfold r. cbn [mk_signal labels]. unfold concatenation_labels.
      rewrite sanitize_same by (rewrite zlen_map, zlen_seq; lia). rewrite zth_map_zseq. replace (_ && _) with true by lia.
      do 3 f_equal. lia. }
    split; [intros s I; apply N2, in_map; auto|].
    split.
    { destruct (zmaximum_in (map count data) 0) as [E0|I]; [fold N in E0|fold N in I].
      - exists first. split; auto. pose proof (nrows_nonneg (channels first)). specialize (N2 (count first) (in_map _ _ _ InFirst)). unfold count in *. lia.
      - apply in_map_iff in I as (s & Es & I). eauto. }
    assert (Tag : forall b s, In (b, s) (placed offset length 0 data) <-> In (b, b + length s, s) indices).
    { intros b s. split.
      - intros I. apply (Permutation_in _ (Permutation_sym Perm)). apply in_map_iff. exists (b, s). auto.
      - intros I. apply (Permutation_in _ Perm) in I. apply in_map_iff in I as ([b' s'] & [= -> _ ->] & I). auto. }
    split.
    { intros b s I. apply Tag in I. pose proof (Least _ I) as L1. cbn [fst snd] in L1. specialize (Ends _ I). cbn [fst snd] in Ends. lia. }
    assert (Id : In (start, d) (placed offset length 0 data)).
    { apply Tag. rewrite <- Ed. cbn; auto. }
    split; [exists start, d; auto|].
    split.
    { destruct (zmaximum_in (map (fun i => snd (fst i)) indices) stop) as [E0|I]; [fold top in E0|fold top in I].
      - exists start, d. split; auto. lia.
      - apply in_map_iff in I as ([[b e] s] & Ey & I). cbn in Ey.
        pose proof (Good _ I) as (_ & Ee & _). cbn [fst snd] in Ee. exists b, s. rewrite Tag, <- Ee. split; auto. }
    intros c t Cc T. unfold at_time, r. cbn [mk_signal channels offset]. rewrite H by lia. f_equal.
    unfold S. replace (t - mo + mo) with t by lia.
    rewrite (sum_perm _ _ (Permutation_map (val c t) Perm)). rewrite map_map. reflexivity.
Qed.

End Concat.

Theorem concatenate_signals_ok {A} (O : ops A) junk (data : list (signal A)) : exact_addition O ->
  2 <= zlen data -> Forall wf_signal data ->
  exists r, concatenate_signals O junk data = Ok r /\ concatenated O data r.
Proof. intros (H0 & HC & HA). apply concatenate_ok; auto. Qed.

(** ** After a history of calls *)

Lemma history_signals {A} (O : ops A) junk mode (h : list (call (signal A))) : sensible [] h ->
  remaining h <> [] -> Forall wf_signal (remaining h) -> Forall (fun d => 1 <= count d) (remaining h) ->
  exists r, merge_output_signals O junk (run (Merger [] mode) h) = Ok r /\
    merged_signal O (latest_mode mode h) (remaining h) r.
Proof.
  intros S N W C. destruct (history mode h S) as [E1 E2]. unfold merge_output_signals. rewrite E1, E2.
  apply merge_signals_ok; auto.
Qed.
Lemma history_spectrums {A R} (O : ops A) junk mode (h : list (call (spectrum A R))) : sensible [] h ->
  remaining h <> [] -> Forall wf_spectrum (remaining h) -> Forall (fun d => 1 <= sp_count d) (remaining h) ->
  exists r, merge_output_spectrums O junk (run (Merger [] mode) h) = Ok r /\
    merged_spectrum O (latest_mode mode h) (remaining h) r.
Proof.
  intros S N W C. destruct (history mode h S) as [E1 E2]. unfold merge_output_spectrums. rewrite E1, E2.
  apply merge_spectrums_ok; auto.
Qed.
Lemma history_concatenation {A} (O : ops A) junk mode (h : list (call (signal A))) : exact_addition O ->
  sensible [] h -> 2 <= zlen (remaining h) -> Forall wf_signal (remaining h) ->
  exists r, concatenate_signals O junk (multi_values (mg_data (run (Merger [] mode) h))) = Ok r /\
    concatenated O (remaining h) r.
Proof.
  intros X S N W. destruct (history mode h S) as [E1 E2]. rewrite E1. apply concatenate_signals_ok; auto.
Qed.
Lemma history_empty {A} (O : ops A) junk mode (h : list (call (signal A))) : sensible [] h ->
  remaining h = [] -> merge_output_signals O junk (run (Merger [] mode) h) = Err RuntimeError.
Proof. intros S N. destruct (history mode h S) as [E1 E2]. unfold merge_output_signals. rewrite E1, N. reflexivity. Qed.
