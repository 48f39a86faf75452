(** Lemmas about the array primitives of Model/Numpy.v. *)

From Coq Require Import ZArith List Bool Lia ZifyBool.
From Verif.Model Require Import Py Numpy.
From Verif.Proofs Require Import PyFacts.
Import ListNotations.
Open Scope Z_scope.

Section Facts.
Context {A : Type}.
Implicit Types m : arr A.

Lemma nrows_nonneg m : 0 <= nrows m.
Proof. apply zlen_nonneg. Qed.

Lemma el_range m i j a : wf m -> el m i j = Some a -> 0 <= i < nrows m /\ 0 <= j < cols m.
Proof.
  intros [_ W] H. unfold el in H. destruct (zth (rows m) i) as [r|] eqn:E; [|discriminate].
  pose proof (zth_range _ _ _ E). rewrite Forall_zth in W. apply W in E.
  apply zth_range in H. unfold nrows. lia.
Qed.

Lemma el_in m i j : wf m -> 0 <= i < nrows m -> 0 <= j < cols m -> exists a, el m i j = Some a.
Proof.
  intros [_ W] I J. unfold el. destruct (zth_in (rows m) i I) as [r E]. rewrite E.
  rewrite Forall_zth in W. apply zth_in. rewrite (W _ _ E). lia.
Qed.

Lemma el_out m i j : wf m -> ~ (0 <= i < nrows m /\ 0 <= j < cols m) -> el m i j = None.
Proof.
  intros W N. destruct (el m i j) eqn:E; auto. apply el_range in E; tauto.
Qed.

Lemma wf_zlen m i r : wf m -> zth (rows m) i = Some r -> zlen r = cols m.
Proof. intros [_ W] E. rewrite Forall_zth in W. eauto. Qed.

Lemma arr_ext m m' :
  wf m -> wf m' -> nrows m = nrows m' -> cols m = cols m' ->
  (forall i j, 0 <= i < nrows m -> 0 <= j < cols m -> el m i j = el m' i j) -> m = m'.
Proof.
  intros W W' N C H. destruct m as [r c], m' as [r' c']. cbn in *. subst c'. f_equal.
  unfold nrows in *; cbn in *. apply zth_ext_in; auto. intros i I.
  destruct (zth_in r i I) as [x E]. destruct (zth_in r' i) as [x' E']; [lia|].
  rewrite E, E'. f_equal.
  pose proof (wf_zlen _ _ _ W E) as L. pose proof (wf_zlen _ _ _ W' E') as L'. cbn in *.
  apply zth_ext_in; [lia|]. intros j J.
  specialize (H i j I). unfold el in H; cbn in H. rewrite E, E' in H. apply H. lia.
Qed.

Lemma allocate_ok (junk : Z -> Z -> A) r c : 0 <= r -> 0 <= c ->
  exists m, allocate junk r c = Ok m /\ wf m /\ nrows m = r /\ cols m = c.
Proof.
  intros R C. unfold allocate.
  replace ((r <? 0) || (c <? 0)) with false by lia.
  eexists; split; [reflexivity|]. unfold wf, nrows; cbn [rows cols].
  rewrite zlen_map, zlen_seq. repeat split; try lia.
  apply Forall_zth. intros i a. rewrite zth_map, zth_seq. zcases; cbn; [|discriminate].
  intros [= <-]. rewrite zlen_map, zlen_seq; lia.
Qed.

(** ** Blocks *)

Lemma wf_block m r c : wf m -> wf (block m r c).
Proof.
  intros [C W]. split; cbn.
  - pose proof (upper_range c (cols m) C); lia.
  - apply Forall_zth. intros i a. rewrite zth_map, zth_subseq. zcases; cbn; [|discriminate].
    destruct (zth (rows m) _) eqn:E'; cbn; [|discriminate]. intros [= <-].
    rewrite zlen_subseq, (wf_zlen m _ _ (conj C W) E'). reflexivity.
Qed.

Lemma nrows_block m r c : nrows (block m r c) = upper r (nrows m) - lower r (nrows m).
Proof. unfold nrows; cbn. rewrite zlen_map, zlen_subseq. reflexivity. Qed.

Lemma cols_block m r c : cols (block m r c) = upper c (cols m) - lower c (cols m).
Proof. reflexivity. Qed.

Lemma el_block m r c i j : wf m ->
  el (block m r c) i j =
  if (0 <=? i) && (i <? upper r (nrows m) - lower r (nrows m))
     && (0 <=? j) && (j <? upper c (cols m) - lower c (cols m))
  then el m (i + lower r (nrows m)) (j + lower c (cols m)) else None.
Proof.
  intros W. unfold el at 1. cbn. rewrite zth_map, zth_subseq. fold (nrows m).
  destruct ((0 <=? i) && (i <? upper r (nrows m) - lower r (nrows m))); cbn [andb option_map]; auto.
  unfold el. destruct (zth (rows m) (i + _)) as [x|] eqn:E; cbn [option_map].
  - rewrite zth_subseq, (wf_zlen _ _ _ W E). reflexivity.
  - now zcases.
Qed.

Lemma row_ok m i : wf m -> 0 <= i < nrows m ->
  exists m', row m i = Ok m' /\ wf m' /\ nrows m' = 1 /\ cols m' = cols m /\ forall j, el m' 0 j = el m i j.
Proof.
  intros W I. unfold row, getitem. replace (i <? 0) with false by lia.
  destruct (zth_in (rows m) i I) as [x E]. rewrite E. cbn.
  eexists; split; [reflexivity|]. repeat split; cbn.
  - destruct W; auto.
  - constructor; auto. eapply wf_zlen; eauto.
  - intros j. unfold el; cbn. rewrite E. reflexivity.
Qed.

(** ** Broadcasting *)

Lemma zlen_brow k (r : list A) : 0 <= k -> zlen r = k \/ zlen r = 1 -> zlen (brow k r) = k.
Proof.
  intros K H. unfold brow. destruct (Z.eqb_spec (zlen r) k); auto.
  destruct H as [|H]; [lia|]. destruct (zlen_one _ H) as [a ->]. rewrite zlen_repeat; lia.
Qed.

Lemma zth_brow k (r : list A) j : zlen r = k \/ zlen r = 1 -> 0 <= j < k ->
  zth (brow k r) j = zth r (if zlen r =? 1 then 0 else j).
Proof.
  intros H J. unfold brow. destruct (Z.eqb_spec (zlen r) k).
  - destruct (Z.eqb_spec (zlen r) 1); auto. f_equal; lia.
  - destruct H as [|H]; [lia|]. destruct (zlen_one _ H) as [a ->].
    rewrite zth_repeat. rewrite H. cbn. zcases.
Qed.

Lemma broadcast_ok m n k : wf m -> 0 <= n -> 0 <= k ->
  nrows m = n \/ nrows m = 1 -> cols m = k \/ cols m = 1 ->
  exists m', broadcast m n k = Ok m' /\ wf m' /\ nrows m' = n /\ cols m' = k /\
    forall i j, 0 <= i < n -> 0 <= j < k ->
      el m' i j = el m (if nrows m =? 1 then 0 else i) (if cols m =? 1 then 0 else j).
Proof.
  intros W N K HN HK. unfold broadcast.
  replace (negb _) with false by lia.
  assert (WR : Forall (fun r => zlen (brow k r) = k) (rows m)).
  { destruct W as [_ W]. eapply Forall_impl; [|exact W]. cbn. intros r E. apply zlen_brow; auto. now rewrite E. }
  destruct (Z.eqb_spec (nrows m) n) as [E|E].
  - eexists; split; [reflexivity|]. unfold wf, nrows; cbn [rows cols]. repeat split; auto.
    + now rewrite Forall_map.
    + now rewrite zlen_map.
    + intros i j I J. unfold el; cbn [rows]. rewrite zth_map. fold (nrows m).
      replace (if nrows m =? 1 then 0 else i) with i by (zcases).
      destruct (zth_in (rows m) i) as [x X]; [unfold nrows in *; lia|]. rewrite X. cbn.
      pose proof (wf_zlen _ _ _ W X) as L. rewrite zth_brow; auto; [now rewrite L|now rewrite L].
  - destruct HN as [|HN]; [lia|]. destruct (zlen_one _ HN) as [x X]. rewrite X.
    eexists; split; [reflexivity|]. unfold wf, nrows; cbn [rows cols].
    rewrite X in WR. inversion WR; subst. repeat split; auto.
    + apply Forall_zth. intros i a. rewrite zth_repeat. zcases; [|discriminate]. intros [= <-]. auto.
    + rewrite zlen_repeat; lia.
    + intros i j I J. unfold el; cbn [rows]. rewrite zth_repeat, X.
      replace ((0 <=? i) && (i <? n)) with true by lia.
      change (zlen [x]) with 1. cbn [Z.eqb Pos.eqb].
      assert (L : zlen x = cols m) by (apply (wf_zlen m 0); auto; rewrite X; reflexivity).
      replace (zth [x] 0) with (Some x) by reflexivity.
      rewrite zth_brow; rewrite ?L; auto.
Qed.

(** ** Assignment *)

Lemma set_block_ok m r c src :
  wf m -> wf src ->
  nrows src = upper r (nrows m) - lower r (nrows m) \/ nrows src = 1 ->
  cols src = upper c (cols m) - lower c (cols m) \/ cols src = 1 ->
  exists m', set_block m r c src = Ok m' /\ wf m' /\ nrows m' = nrows m /\ cols m' = cols m /\
    forall i j,
      el m' i j =
      if (lower r (nrows m) <=? i) && (i <? upper r (nrows m))
         && (lower c (cols m) <=? j) && (j <? upper c (cols m))
      then el src (if nrows src =? 1 then 0 else i - lower r (nrows m))
                  (if cols src =? 1 then 0 else j - lower c (cols m))
      else el m i j.
Proof.
  intros W WS HN HK. unfold set_block.
  pose proof (nrows_nonneg m) as NN. assert (CN : 0 <= cols m) by (destruct W; auto).
  pose proof (lower_range r _ NN) as R1. pose proof (upper_range r _ NN) as R2.
  pose proof (lower_range c _ CN) as C1. pose proof (upper_range c _ CN) as C2.
  set (rlo := lower r (nrows m)) in *. set (rhi := upper r (nrows m)) in *.
  set (clo := lower c (cols m)) in *. set (chi := upper c (cols m)) in *.
  destruct (broadcast_ok src (rhi - rlo) (chi - clo)) as (s & -> & Ws & Ns & Cs & Es); auto; try lia.
  cbn [bind]. eexists; split; [reflexivity|].
  assert (NR : nrows {| rows := ztake rlo (rows m) ++ map2 (set_row clo chi) (subseq r (rows m)) (rows s) ++ zdrop rhi (rows m); cols := cols m |} = nrows m).
  { unfold nrows; cbn [rows]. rewrite !zlen_app, zlen_take, zlen_map2, zlen_drop, zlen_subseq.
    fold (nrows m). fold (nrows s). fold rlo rhi. lia. }
  assert (RW : forall i, zth (ztake rlo (rows m) ++ map2 (set_row clo chi) (subseq r (rows m)) (rows s) ++ zdrop rhi (rows m)) i =
     if (rlo <=? i) && (i <? rhi) then
       match zth (rows m) i, zth (rows s) (i - rlo) with Some o, Some n => Some (set_row clo chi o n) | _, _ => None end
     else zth (rows m) i).
  { intros i. rewrite !zth_app, zth_take, zth_map2, zth_drop, zth_subseq, zlen_take, zlen_map2, zlen_subseq.
    fold (nrows m). fold (nrows s). fold rlo rhi. rewrite Ns.
    replace (Z.max 0 (Z.min rlo (nrows m))) with rlo by lia.
    replace (Z.min (rhi - rlo) (rhi - rlo)) with (rhi - rlo) by lia.
    destruct (Z.ltb_spec i rlo); [replace (rlo <=? i) with false by lia; cbn; auto|].
    replace (rlo <=? i) with true by lia. cbn [andb].
    replace (0 <=? i - rlo) with true by lia. cbn [andb].
    replace (i - rlo <? rhi - rlo) with (i <? rhi) by lia.
    destruct (Z.ltb_spec i rhi).
    - replace (i - rlo + rlo) with i by lia. reflexivity.
    - replace (i - rlo - (rhi - rlo) <? 0) with false by lia. f_equal. lia. }
  split; [|split; [exact NR|split; [reflexivity|]]].
  - split; cbn [rows cols]; auto. apply Forall_zth. intros i a. rewrite RW.
    destruct ((rlo <=? i) && (i <? rhi)) eqn:E.
    + destruct (zth (rows m) i) as [o|] eqn:Eo; [|discriminate].
      destruct (zth (rows s) (i - rlo)) as [n|] eqn:En; [|discriminate].
      intros [= <-]. unfold set_row. rewrite !zlen_app, zlen_take, zlen_drop.
      rewrite (wf_zlen _ _ _ W Eo), (wf_zlen _ _ _ Ws En), Cs. lia.
    + intros H. eapply wf_zlen; eauto.
  - intros i j. unfold el at 1. cbn [rows]. rewrite RW.
    destruct ((rlo <=? i) && (i <? rhi)) eqn:E; cbn [andb]; [|reflexivity].
    destruct (zth_in (rows m) i) as [o Eo]; [unfold nrows in *; lia|].
    destruct (zth_in (rows s) (i - rlo)) as [n En]; [unfold nrows in *; lia|].
    rewrite Eo, En. unfold set_row. rewrite !zth_app, zth_take, zth_drop, zlen_take.
    rewrite (wf_zlen _ _ _ W Eo), (wf_zlen _ _ _ Ws En), Cs.
    replace (Z.max 0 (Z.min clo (cols m))) with clo by lia.
    unfold el at 2. rewrite Eo.
    destruct (Z.ltb_spec j clo); [replace (clo <=? j) with false by lia; reflexivity|].
    replace (clo <=? j) with true by lia. cbn [andb].
    replace (j - clo <? chi - clo) with (j <? chi) by lia.
    destruct (Z.ltb_spec j chi).
    + specialize (Es (i - rlo) (j - clo)). unfold el at 1 in Es. rewrite En in Es. apply Es; lia.
    + replace (j - clo - (chi - clo) <? 0) with false by lia. f_equal. lia.
Qed.

Lemma set_row_block_ok m i0 c src :
  wf m -> wf src -> 0 <= i0 < nrows m ->
  nrows src = 1 ->
  cols src = upper c (cols m) - lower c (cols m) \/ cols src = 1 ->
  exists m', set_row_block m i0 c src = Ok m' /\ wf m' /\ nrows m' = nrows m /\ cols m' = cols m /\
    forall i j,
      el m' i j =
      if (i =? i0) && (lower c (cols m) <=? j) && (j <? upper c (cols m))
      then el src 0 (if cols src =? 1 then 0 else j - lower c (cols m))
      else el m i j.
Proof.
  intros W WS I N C. unfold set_row_block.
  replace (i0 <? 0) with false by lia. cbv zeta beta iota.
  replace ((i0 <? 0) || (nrows m <=? i0)) with false by lia.
  destruct (set_block_ok m (between i0 (i0 + 1)) c src W WS) as (m' & E & W' & N' & C' & H); auto.
  exists m'. repeat split; auto; try apply W'. intros i j. rewrite H, lower_between, upper_between, N by lia.
  change (1 =? 1) with true. cbv iota.
  replace ((i0 <=? i) && (i <? i0 + 1)) with (i =? i0) by lia. reflexivity.
Qed.

Lemma wf_scalar (x : A) : wf (scalar x).
Proof. split; cbn; [lia|]. repeat constructor. Qed.
Lemma nrows_scalar (x : A) : nrows (scalar x) = 1.
Proof. reflexivity. Qed.
Lemma cols_scalar (x : A) : cols (scalar x) = 1.
Proof. reflexivity. Qed.
Lemma el_scalar (x : A) : el (scalar x) 0 0 = Some x.
Proof. reflexivity. Qed.

End Facts.

Lemma ufunc2_ok {A B C} (f : A -> B -> C) (a : arr A) (b : arr B) n k :
  wf a -> wf b -> 0 <= n -> 0 <= k ->
  nrows a = n \/ nrows a = 1 -> cols a = k \/ cols a = 1 ->
  nrows b = n \/ nrows b = 1 -> cols b = k \/ cols b = 1 ->
  exists m', ufunc2 f a b n k = Ok m' /\ wf m' /\ nrows m' = n /\ cols m' = k /\
    forall i j, 0 <= i < n -> 0 <= j < k ->
      el m' i j =
      match el a (if nrows a =? 1 then 0 else i) (if cols a =? 1 then 0 else j),
            el b (if nrows b =? 1 then 0 else i) (if cols b =? 1 then 0 else j) with
      | Some x, Some y => Some (f x y) | _, _ => None end.
Proof.
  intros Wa Wb N K H1 H2 H3 H4. unfold ufunc2.
  destruct (broadcast_ok a n k) as (a' & -> & Wa' & Na & Ca & Ea); auto.
  destruct (broadcast_ok b n k) as (b' & -> & Wb' & Nb & Cb & Eb); auto.
  cbn [bind]. eexists; split; [reflexivity|]. unfold wf, nrows; cbn [rows cols].
  assert (L : forall i x, zth (map2 (map2 f) (rows a') (rows b')) i = Some x -> zlen x = k).
  { intros i x. rewrite zth_map2. destruct (zth (rows a') i) eqn:E1; [|discriminate].
    destruct (zth (rows b') i) eqn:E2; [|discriminate]. intros [= <-].
    rewrite zlen_map2, (wf_zlen _ _ _ Wa' E1), (wf_zlen _ _ _ Wb' E2). lia. }
  repeat split; auto.
  - now apply Forall_zth.
  - rewrite zlen_map2. fold (nrows a'). fold (nrows b'). lia.
  - intros i j I J. rewrite <- Ea, <- Eb by auto. unfold el; cbn [rows].
    rewrite zth_map2. destruct (zth (rows a') i) eqn:E1; auto.
    destruct (zth (rows b') i) eqn:E2.
    + rewrite zth_map2. reflexivity.
    + destruct (zth l j); auto.
Qed.

Lemma ufunc2_into_ok {A B C} (f : A -> B -> C) (a : arr A) (b : arr B) (m : arr C) r c :
  wf a -> wf b -> wf m ->
  nrows a = upper r (nrows m) - lower r (nrows m) \/ nrows a = 1 ->
  cols a = upper c (cols m) - lower c (cols m) \/ cols a = 1 ->
  nrows b = upper r (nrows m) - lower r (nrows m) \/ nrows b = 1 ->
  cols b = upper c (cols m) - lower c (cols m) \/ cols b = 1 ->
  exists m', ufunc2_into f a b m r c = Ok m' /\ wf m' /\ nrows m' = nrows m /\ cols m' = cols m /\
    forall i j,
      el m' i j =
      if (lower r (nrows m) <=? i) && (i <? upper r (nrows m))
         && (lower c (cols m) <=? j) && (j <? upper c (cols m))
      then
        match el a (if nrows a =? 1 then 0 else i - lower r (nrows m)) (if cols a =? 1 then 0 else j - lower c (cols m)),
              el b (if nrows b =? 1 then 0 else i - lower r (nrows m)) (if cols b =? 1 then 0 else j - lower c (cols m)) with
        | Some x, Some y => Some (f x y) | _, _ => None end
      else el m i j.
Proof.
  intros Wa Wb Wm H1 H2 H3 H4. unfold ufunc2_into.
  pose proof (nrows_nonneg m) as NN. assert (CN : 0 <= cols m) by (destruct Wm; auto).
  pose proof (lower_range r _ NN) as R1. pose proof (upper_range r _ NN) as R2.
  pose proof (lower_range c _ CN) as C1. pose proof (upper_range c _ CN) as C2.
  destruct (ufunc2_ok f a b (upper r (nrows m) - lower r (nrows m)) (upper c (cols m) - lower c (cols m)))
    as (s & -> & Ws & Ns & Cs & Es); auto; try lia.
  cbn [bind].
  destruct (set_block_ok m r c s) as (m' & E & W' & N' & C' & H); auto; try lia.
  exists m'. repeat split; auto; try apply W'. intros i j. rewrite H, Ns, Cs.
  match goal with |- context [if ?b then _ else _] => destruct b eqn:Eb end; auto.
  rewrite <- Es by lia. f_equal; zcases.
Qed.

Lemma ufunc1_wf {A B} (f : A -> B) (m : arr A) : wf m -> wf (ufunc1 f m).
Proof.
  intros [C W]. split; cbn; auto. rewrite Forall_map. eapply Forall_impl; [|exact W].
  cbn. intros r <-. apply zlen_map.
Qed.

Lemma nrows_ufunc1 {A B} (f : A -> B) (m : arr A) : nrows (ufunc1 f m) = nrows m.
Proof. unfold nrows; cbn. apply zlen_map. Qed.

Lemma el_ufunc1 {A B} (f : A -> B) (m : arr A) i j : el (ufunc1 f m) i j = option_map f (el m i j).
Proof.
  unfold el; cbn. rewrite zth_map. destruct (zth (rows m) i); cbn; auto. apply zth_map.
Qed.

Lemma set_scalar_ok {A} (m : arr A) r c (x : A) : wf m ->
  exists m', set_block m r c (scalar x) = Ok m' /\ wf m' /\ nrows m' = nrows m /\ cols m' = cols m /\
    forall i j,
      el m' i j =
      if (lower r (nrows m) <=? i) && (i <? upper r (nrows m))
         && (lower c (cols m) <=? j) && (j <? upper c (cols m))
      then Some x else el m i j.
Proof.
  intros W. destruct (set_block_ok m r c (scalar x)) as (m' & E & W' & N & C & H); auto.
  - apply wf_scalar.
  - exists m'. repeat split; auto; apply W'.
Qed.
