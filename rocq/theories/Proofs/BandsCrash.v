(** Truncated CSV files with bands filters. *)

From Coq Require Import String ZArith List Bool Lia ZifyBool Sorted Permutation.
From Verif.Model Require Import Py Tables Terms Filter Bands Csv Json JsonFiles CsvFiles.
From Verif.Model Require Pcm.
From Verif.Spec Require Import CsvSpec CsvFilesSpec BandsSpec CsvCrashSpec.
From Verif.Proofs Require Import PyFacts BandsClass BandsTables CsvFilesFacts CsvBands.
From Verif.Proofs Require BandsFiles CsvCrash.
Import ListNotations.
Open Scope list_scope.
Open Scope Z_scope.
Notation cut := CsvCrash.cut.
Notation shortened := CsvCrash.shortened.

Lemma cut_cases left file : cut left file -> (exists rest, file = left ++ rest) \/
  exists before short row rest, left = before ++ [short] /\ file = before ++ row :: rest /\ shortened short row.
Proof.
  revert file. induction left as [| s left IH]; intros file [L C]; [left; now exists file |].
  destruct (C 0 s eq_refl) as (row & Hr & D). destruct file as [| row' file]; [now rewrite zth_nil in Hr |]. assert (row' = row) as -> by (rewrite zth_cons in Hr; cbn in Hr; congruence).
  rewrite !zlen_cons in *. assert (D' : s = row \/ left = [] /\ shortened s row).
  { destruct D as [D | [D1 D2]]; [now left | right]. split; [| exact D2]. apply zlen_zero. lia. }
  clear D. destruct D' as [-> | [-> D]].
  - destruct (IH file) as [(rest & ->) | (before & short & r & rest & -> & -> & S)].
    + split; [lia |]. intros k short K. pose proof (zth_range _ _ _ K). destruct (C (k + 1) short) as (r & H1 & H2).
      * rewrite zth_cons. replace (k + 1 =? 0) with false by lia. now replace (k + 1 - 1) with k by lia.
      * rewrite zth_cons in H1. replace (k + 1 =? 0) with false in H1 by lia. replace (k + 1 - 1) with k in H1 by lia. exists r. split; [exact H1 |].
        destruct H2 as [H2 | [H2 H3]]; [now left | right; split; [lia | exact H3]].
    + left. now exists rest.
    + right. now exists (row :: before), short, r, rest.
  - right. now exists [], s, row, file.
Qed.

Section BandsCrash.
Context {K X : Type}.
Variable A : arithmetic K X.
Hypothesis OA : ordered A.

(** ** Rows, that might be shorter than the number of channels *)

Lemma process_row_map n (D : Z -> dict (X := X) K) r : 0 <= n -> zlen (snd r) <= n ->
  process_row A (map D (zseq 0 n)) r = map (fun c => column A c (D c) r) (zseq 0 n).
Proof.
  intros N L. unfold process_row. rewrite zlen_map, zlen_seq. replace (zlen (snd r) - Z.max 0 n) with (- (n - zlen (snd r))) by lia.
  assert (R : zrepeat (@nil (X * K)) (- (n - zlen (snd r))) = []). { unfold zrepeat. now replace (Z.to_nat (- (n - zlen (snd r)))) with 0%nat by lia. }
  rewrite R, app_nil_r. unfold column. destruct (fst r) as [f |].
  2:{ apply map_ext. reflexivity. }
  pose proof (zlen_nonneg (snd r)). apply zth_ext. intros i. rewrite zth_app, zth_drop, zlen_map2, zlen_map, zlen_seq, Z.min_l by lia. rewrite zth_map2, !zth_map, !zth_seq.
  replace (i - zlen (snd r) + Z.max 0 (zlen (snd r))) with i by lia. cbn [Z.add].
  destruct (Z.ltb_spec i (zlen (snd r))).
  - destruct (Z.leb_spec 0 i); [| cbn [andb option_map]; now destruct (zth (snd r) i)]. replace (i <? n) with true by lia. cbn [andb option_map].
    destruct (zth_in (snd r) i) as [v V]; [lia |]. rewrite V. reflexivity.
  - replace (i - zlen (snd r) <? 0) with false by lia. destruct ((0 <=? i) && (i <? n)); [| reflexivity]. cbn [option_map]. rewrite zth_out by lia. reflexivity.
Qed.

Lemma process_rows_map n rows : 0 <= n -> (forall r, In r rows -> zlen (snd r) <= n) -> forall D : Z -> dict (X := X) K,
  fold_left (process_row A) rows (map D (zseq 0 n)) = map (fun c => fold_left (column A c) rows (D c)) (zseq 0 n).
Proof.
  intros N. induction rows as [| r rows IH]; intros H D; [reflexivity |]. cbn [fold_left]. rewrite process_row_map by (auto; apply H; now left).
  apply (IH (fun r Hr => H r (or_intror Hr)) (fun c => column A c (D c) r)).
Qed.

(** ** The supporting points *)

Lemma point_value (t : term K X) f y : good_term A t -> (point t f y <-> value A t f = Some y).
Proof.
  intros (xs & ys & i & e & -> & S & L). cbn [value]. rewrite (BandsClass.dict_get_in A OA) by (unfold dictionary; rewrite combine_fst by exact L; now apply (ascending_nodup A OA)).
  split.
  - intros (xs' & ys' & i' & e' & k & E & H1 & H2). injection E as <- <- <- <-. apply (zth_In _ k). now apply zth_combine.
  - intros H. apply In_zth in H as [k H]. pose proof (zth_range _ _ _ H) as R. assert (R' : 0 <= k < zlen xs) by (unfold zlen in *; rewrite combine_length in R; lia).
    destruct (zth_in xs k R') as [x Hx]. destruct (zth_in ys k ltac:(lia)) as [y' Hy]. rewrite (zth_combine _ _ _ _ _ Hx Hy) in H. injection H as -> ->.
    exists xs, ys, i, e, k. auto.
Qed.

Lemma point_supported (d : list (X * K)) i e t f y : dictionary d -> supported A d i e t -> (point t f y <-> dict_get A d f = Some y).
Proof.
  intros D (xs & ys & E & S & L & H). rewrite point_value by (exists xs, ys, i, e; auto). subst t. cbn [value].
  rewrite (BandsClass.dict_get_in A OA) by (unfold dictionary; rewrite combine_fst by exact L; now apply (ascending_nodup A OA)). rewrite (BandsClass.dict_get_in A OA) by exact D. apply H.
Qed.

(** The frequencies in the table are sorted. *)
Lemma as_table_sorted F : bands_filter A F -> exists fs, ascending A fs /\ (forall f, In f fs <-> present A (transfer_functions F) f = true) /\
  as_table A F = Ok (table_of A F fs).
Proof.
  intros G. destruct (as_table_ok A OA F G) as (fs & N & P & _ & E). change (as_table A F = Ok (table_of A F fs)) in E. exists fs. split; [| split; [exact P | exact E]].
  unfold as_table in E. destruct (add_channels_ok A OA (transfer_functions F) [] []) as (d & Ed & T). { split; [constructor | reflexivity]. } { exact G. }
  change (zlen []) with 0 in Ed. rewrite Ed in E. cbn [bind] in E. injection E as E.
  destruct d as [| p d'] eqn:Q.
  - destruct fs as [| f fs]; [intros i j x y H; now rewrite zth_nil in H |]. unfold table_of, rows_of in E. cbn [map] in E. destruct (f_count F =? 0); discriminate.
  - rewrite <- Q in *. assert (fs = map fst (sorted A d)) as ->.
    { assert (M : map fst (table_of A F fs) = map Some (map fst (sorted A d))) by (rewrite <- E, !map_map; reflexivity).
      assert (H : map Some fs = map Some (map fst (sorted A d)) -> fs = map fst (sorted A d)).
      { generalize (map fst (sorted A d)). clear. induction fs as [| f fs IH]; intros [| g gs] H; try discriminate; [reflexivity |]. cbn [map] in H. injection H as -> H. f_equal. now apply IH. }
      apply H. rewrite <- M. destruct fs as [| f fs].
      - unfold table_of in M |- *. destruct (f_count F =? 0); [reflexivity |]. destruct (sorted A d); cbn in M; [discriminate | injection M as M; discriminate].
      - unfold table_of, rows_of. rewrite map_map. reflexivity. }
    apply (sorted_ascending A). apply (sorted_sorted A OA). apply T.
Qed.

Lemma ascending_parts fs1 z fs2 : ascending A (fs1 ++ z :: fs2) -> (forall f, In f fs1 -> x_ltb A f z = true) /\ (forall f, In f fs2 -> x_ltb A z f = true).
Proof.
  intros S. assert (Z : zth (fs1 ++ z :: fs2) (zlen fs1) = Some z). { rewrite zth_app, Z.ltb_irrefl, Z.sub_diag. reflexivity. } split; intros f H; apply In_zth in H as [k H]; pose proof (zth_range _ _ _ H) as R.
  - apply (S k (zlen fs1)); [| exact Z | lia]. rewrite zth_app. now replace (k <? zlen fs1) with true by lia.
  - apply (S (zlen fs1) (zlen fs1 + 1 + k)); [exact Z | | lia]. rewrite zth_app. replace (zlen fs1 + 1 + k <? zlen fs1) with false by lia. rewrite zth_cons.
    replace (zlen fs1 + 1 + k - zlen fs1 =? 0) with false by lia. now replace (zlen fs1 + 1 + k - zlen fs1 - 1) with k by lia.
Qed.

Lemma last_row F fs1 z fs2 vs j c t0 : bands_filter A F -> ascending A (fs1 ++ z :: fs2) -> (forall f, In f (fs1 ++ z :: fs2) <-> present A (transfer_functions F) f = true) ->
  (forall i, i < j -> zth vs i = zth (row_of A (transfer_functions F) z) i) -> (forall i, j < i -> zth vs i = None) -> zth (transfer_functions F) c = Some t0 ->
  let d := fold_left (column A c) (rows_of A (transfer_functions F) fs1 ++ [(Some z, vs)]) [] in
  forall f, (x_ltb A f z = true -> dict_get A d f = value A t0 f) /\ (x_ltb A z f = true -> dict_get A d f = None) /\
    (f = z -> (c < j -> dict_get A d f = value A t0 f) /\ (j < c -> dict_get A d f = None)).
Proof.
  intros G S P V1 V2 T d f. destruct (ascending_parts _ _ _ S) as [S1 S2]. pose proof (ascending_nodup A OA _ S) as N.
  assert (N1 : NoDup fs1). { clear -N. induction fs1 as [| x l IH]; [constructor |]. inversion N as [| ? ? N1 N2]; subst. constructor; [| now apply IH]. intros H. apply N1, in_app_iff. now left. }
  assert (I : forall f, existsb (x_eqb A f) fs1 = true <-> In f fs1).
  { intros g. rewrite existsb_exists. split; [intros (x & Hx & E); apply (same_frequency A OA) in E; now subst | intros H; exists g; split; [exact H | now apply (same_frequency A OA)]]. }
  assert (B : forall g, dict_get A (fold_left (column A c) (rows_of A (transfer_functions F) fs1) []) g = if existsb (x_eqb A g) fs1 then value A t0 g else None).
  { intros g. now rewrite (column_get A OA c (transfer_functions F) t0 fs1 T N1). }
  assert (Z1 : existsb (x_eqb A z) fs1 = false). { destruct (existsb (x_eqb A z) fs1) eqn:E; [| reflexivity]. apply I in E. apply S1 in E. now rewrite (never_less_than_itself A OA) in E. }
  assert (H : dict_get A d f = if x_eqb A z f then match zth vs c with Some (Some y) => Some y | _ => None end else if existsb (x_eqb A f) fs1 then value A t0 f else None).
  { subst d. rewrite fold_left_app. cbn [fold_left]. unfold column at 1. cbn [fst snd]. rewrite <- B. destruct (x_eqb A z f) eqn:E.
    - apply (same_frequency A OA) in E. subst f. destruct (zth vs c) as [[y |] |]; [rewrite (dict_get_set A OA), (x_eqb_refl A OA); reflexivity | |]; rewrite B, Z1; reflexivity.
    - destruct (zth vs c) as [[y |] |]; [rewrite (dict_get_set A OA), E; reflexivity | |]; reflexivity. }
  rewrite H. clear H. assert (Hp : forall g y, value A t0 g = Some y -> In g (fs1 ++ z :: fs2)).
  { intros g y Hv. apply P. unfold present. apply existsb_exists. exists t0. split; [now apply zth_In in T | now rewrite Hv]. }
  split; [| split].
  - intros L. assert (x_eqb A z f = false) as ->. { apply (x_eqb_neq A OA). intros <-. now rewrite (never_less_than_itself A OA) in L. }
    destruct (existsb (x_eqb A f) fs1) eqn:E; [reflexivity |]. destruct (value A t0 f) as [y |] eqn:Vy; [| reflexivity]. apply Hp in Vy. apply in_app_iff in Vy as [H | [H | H]].
    + apply I in H. congruence.
    + subst f. now rewrite (never_less_than_itself A OA) in L.
    + apply S2 in H. pose proof (less_than_trans A OA _ _ _ L H) as C. now rewrite (never_less_than_itself A OA) in C.
  - intros L. assert (x_eqb A z f = false) as ->. { apply (x_eqb_neq A OA). intros <-. now rewrite (never_less_than_itself A OA) in L. }
    destruct (existsb (x_eqb A f) fs1) eqn:E; [| reflexivity]. apply I, S1 in E. pose proof (less_than_trans A OA _ _ _ L E) as C. now rewrite (never_less_than_itself A OA) in C.
  - intros ->. rewrite (x_eqb_refl A OA). split; intros L.
    + rewrite V1 by exact L. unfold row_of. rewrite zth_map, T. cbn [option_map]. now destruct (value A t0 z).
    + now rewrite V2 by exact L.
Qed.

Lemma made_facts b labels B : Forall dictionary b -> zlen labels = zlen b -> mk_bands A b (OneFlag Logarithmic) (OneFlag StairsLin) labels = Ok B ->
  f_count (b_filter B) = zlen b /\ f_labels (b_filter B) = labels /\ plain_channels A B /\
  forall c t, zth (transfer_functions (b_filter B)) c = Some t -> exists d, zth b c = Some d /\ supported A d Logarithmic StairsLin t.
Proof.
  intros D L E. destruct (mk_bands_ok A OA b (OneFlag Logarithmic) (OneFlag StairsLin) labels D) as (B' & E' & C & _ & LB & _ & _ & M); [right; cbn; auto |].
  rewrite E in E'. injection E' as <-. assert (H : forall c t, zth (transfer_functions (b_filter B)) c = Some t -> exists d, zth b c = Some d /\ supported A d Logarithmic StairsLin t).
  { intros c t T. destruct (zth_in b c) as [d Hd]; [pose proof (zth_range _ _ _ T) as R; unfold f_count in C; lia |]. exists d. split; [exact Hd |].
    destruct (M c d Hd) as (ic & ec & t' & l & Hi & He & _ & T' & S & _). cbn in Hi, He. subst ic ec. rewrite T in T'. injection T' as <-. exact S. }
  split; [exact C |]. split; [| split; [| exact H]].
  - apply zth_ext. intros c. destruct (Z.leb_spec 0 c); [destruct (Z.ltb_spec c (zlen b)) |].
    + destruct (zth_in b c) as [d Hd]; [lia |]. destruct (M c d Hd) as (ic & ec & t' & l & _ & _ & Hl & _ & _ & Zl & _). rewrite Zl. destruct Hl as [Hl | [Hl _]]; [now rewrite Hl | lia].
    + rewrite !zth_out by lia. reflexivity.
    + rewrite !zth_neg by lia. reflexivity.
  - intros t T. apply In_zth in T as [c T]. destruct (H c t T) as (d & _ & xs & ys & E1 & S & L1 & _). exists xs, ys. auto.
Qed.

(** ** The rows of the truncated file *)

Variables (show : X -> string) (show_value : K -> string).
Variables (parse : string -> option X) (parse_value : string -> option K).
Variables (nul : bool) (limit : Z).
Notation line := (fun r : option X * list (option K) => cell_of show (fst r) :: map (cell_of show_value) (snd r)).
Notation good := (good_row show show_value parse parse_value nul limit).

Lemma values_short before b0 : Forall (all (stored nul limit show_value parse_value)) before ->
  sequence (map (value_of_cell parse_value) (map (cell_of show_value) before ++ [b0])) =
  match value_of_cell parse_value b0 with Ok v => Ok (before ++ [v]) | Err e => Err e end.
Proof.
  induction 1 as [| v values G _ IH].
  - cbn [map app sequence]. now destruct (value_of_cell parse_value b0).
  - cbn [map app sequence]. rewrite IH. assert (value_of_cell parse_value (cell_of show_value v) = Ok v) as ->.
    { unfold value_of_cell. destruct v as [y |]; cbn [cell_of]; [| reflexivity]. destruct G as (N & _ & E). destruct (String.eqb_spec (show_value y) EmptyString); [easy |]. now rewrite E. }
    cbn [bind]. now destruct (value_of_cell parse_value b0).
Qed.

Lemma short_row b r short b' : good r -> zlen (snd r) <= zlen b -> shortened short (line r) -> process_texts A parse parse_value b short = (b', None) ->
  exists r', b' = process_row A b r' /\ zlen (snd r') <= zlen b /\
    (fst r' = None \/ fst r' = fst r /\ exists before v v0 after, snd r' = before ++ [v] /\ snd r = before ++ v0 :: after).
Proof.
  intros [G GV] L (cb & b0 & c0 & ca & -> & E & _) H. assert (Z : forall n, n <= 0 -> b ++ zrepeat [] n = b).
  { intros n Hn. unfold zrepeat. replace (Z.to_nat n) with 0%nat by lia. apply app_nil_r. }
  destruct cb as [| x cb].
  - exists (None, []). cbn [app] in H. unfold process_texts in H. change (zlen [b0]) with 1 in H. pose proof (zlen_nonneg b). rewrite Z in H by lia. unfold process_row. cbn [fst snd].
    rewrite zlen_nil, Z by lia. split; [| split; [lia | now left]]. destruct (String.eqb b0 EmptyString); [congruence |]. destruct (parse b0); [| discriminate]. injection H as <-. reflexivity.
  - injection E as <- E. apply map_eq_app in E as (before & rest & Er & <- & E). apply map_eq_cons in E as (v0 & after & -> & _ & _).
    cbn [app] in H. unfold process_texts in H. rewrite zlen_cons, zlen_app, zlen_map, zlen_cons, zlen_nil in H.
    assert (Lr : zlen before + 1 <= zlen b). { rewrite Er, zlen_app, zlen_cons in L. pose proof (zlen_nonneg after). lia. }
    rewrite Z in H by lia. rewrite Er in GV. apply Forall_app in GV as [GV _]. destruct (fst r) as [f |] eqn:Ef; cbn [cell_of] in H.
    + destruct G as (N & _ & Pf). destruct (String.eqb_spec (show f) EmptyString); [easy |]. rewrite Pf, values_short in H by exact GV.
      destruct (value_of_cell parse_value b0) as [v | e]; [| discriminate]. injection H as <-. exists (Some f, before ++ [v]). cbn [fst snd]. unfold process_row. cbn [fst snd].
      rewrite zlen_app, zlen_cons, zlen_nil, Z by lia. split; [reflexivity |]. split; [lia |]. right. split; [reflexivity |]. now exists before, v, v0, after.
    + cbn [String.eqb] in H. injection H as <-. exists (None, []). unfold process_row. cbn [fst snd]. rewrite zlen_nil, Z by (pose proof (zlen_nonneg b); lia). split; [reflexivity |].
      split; [pose proof (zlen_nonneg b); lia | now left].
Qed.

Lemma process_rows_app rows1 rows2 : forall b, process_rows A parse parse_value b (rows1 ++ rows2) = (b' <- process_rows A parse parse_value b rows1 ;; process_rows A parse parse_value b' rows2).
Proof.
  induction rows1 as [| row rows1 IH]; intros b; [reflexivity |]. cbn [app process_rows]. destruct (process_texts A parse parse_value b row) as [b' [e |]]; [reflexivity | apply IH].
Qed.

Lemma zlen_process_row b (r : option X * list (option K)) : zlen (snd r) <= zlen b -> zlen (process_row A b r) = zlen b.
Proof.
  intros L. unfold process_row. assert (b ++ zrepeat [] (zlen (snd r) - zlen b) = b) as ->.
  { unfold zrepeat. replace (Z.to_nat (zlen (snd r) - zlen b)) with 0%nat by lia. apply app_nil_r. }
  destruct (fst r); [| reflexivity]. rewrite zlen_app, zlen_map2, zlen_drop. pose proof (zlen_nonneg (snd r)). lia.
Qed.
Lemma zlen_process_rows rows : forall b, (forall r, In r rows -> zlen (snd r) <= zlen b) -> zlen (fold_left (process_row A) rows b) = zlen b.
Proof.
  induction rows as [| r rows IH]; intros b H; [reflexivity |]. cbn [fold_left]. assert (L : zlen (process_row A b r) = zlen b) by (apply zlen_process_row, H; now left).
  rewrite IH; [exact L |]. intros r' Hr'. rewrite L. apply H. now right.
Qed.

(** What is read of the table *)
Lemma table_read n table body left b : 0 <= n -> Forall good table -> (forall r, In r table -> zlen (snd r) <= n) -> body = map line table ->
  ((exists rest, body = left ++ rest) \/ exists before short row rest, left = before ++ [short] /\ body = before ++ row :: rest /\ shortened short row) ->
  process_rows A parse parse_value (zrepeat [] n) left = Ok b ->
  exists t1 t2 extra, table = t1 ++ t2 /\ b = fold_left (process_row A) (t1 ++ extra) (zrepeat [] n) /\
    (extra = [] \/ exists r', extra = [r'] /\ zlen (snd r') <= n /\
      (fst r' = None \/ exists r t3 before v v0 after, t2 = r :: t3 /\ fst r' = fst r /\ snd r' = before ++ [v] /\ snd r = before ++ v0 :: after)).
Proof.
  intros N G R -> H E. assert (Ln : zlen (zrepeat (@nil (X * K)) n) = n) by (rewrite zlen_repeat; lia).
  destruct H as [(rest & H) | (before & short & row & rest & -> & H & S)].
  - apply map_eq_app in H as (t1 & t2 & -> & <- & _). apply Forall_app in G as [G _]. rewrite (process_rows_table A show show_value parse parse_value nul limit t1 G) in E. injection E as <-.
    exists t1, t2, []. rewrite app_nil_r. auto.
  - apply map_eq_app in H as (t1 & t2 & -> & <- & H). apply map_eq_cons in H as (r & t3 & -> & <- & _). apply Forall_app in G as [G G2]. apply Forall_inv in G2.
    rewrite process_rows_app, (process_rows_table A show show_value parse parse_value nul limit t1 G) in E. cbn [bind process_rows] in E.
    destruct (process_texts A parse parse_value (fold_left (process_row A) t1 (zrepeat [] n)) short) as [b' [e |]] eqn:T; [discriminate |]. injection E as <-.
    assert (Lb : zlen (fold_left (process_row A) t1 (zrepeat [] n)) = n).
    { rewrite zlen_process_rows; [exact Ln |]. intros r' Hr'. rewrite zlen_repeat, Z.max_r by exact N. apply R, in_app_iff. now left. }
    destruct (short_row _ r short b' G2 ltac:(rewrite Lb; apply R, in_app_iff; right; now left) S T) as (r' & -> & L' & H).
    exists t1, (r :: t3), [r']. split; [reflexivity |]. split; [now rewrite fold_left_app |]. right. exists r'. split; [reflexivity |]. split; [lia |].
    destruct H as [H | (H & bf & v & v0 & af & H1 & H2)]; [now left | right]. exists r, t3, bf, v, v0, af. auto.
Qed.

Lemma read_points F b B rows : bands_filter A F -> zlen (f_labels F) = f_count F -> (forall r, In r rows -> zlen (snd r) <= f_count F) ->
  b = fold_left (process_row A) rows (zrepeat [] (f_count F)) -> mk_bands A b (OneFlag Logarithmic) (OneFlag StairsLin) (f_labels F) = Ok B ->
  (exists last channel, forall c t0, zth (transfer_functions F) c = Some t0 -> forall f,
     match last with
     | None => dict_get A (fold_left (column A c) rows []) f = None
     | Some z => (x_ltb A f z = true -> dict_get A (fold_left (column A c) rows []) f = value A t0 f) /\
         (x_ltb A z f = true -> dict_get A (fold_left (column A c) rows []) f = None) /\
         (f = z -> (c < channel -> dict_get A (fold_left (column A c) rows []) f = value A t0 f) /\ (channel < c -> dict_get A (fold_left (column A c) rows []) f = None))
     end) -> incomplete A F B.
Proof.
  intros G L R Eb EB (last & channel & H). pose proof (zlen_nonneg (transfer_functions F)) as N. fold (f_count F) in N.
  rewrite BandsFiles.repeat_map, process_rows_map in Eb by auto.
  assert (D : Forall dictionary b). { subst b. apply Forall_map, Forall_forall. intros c _. apply (column_dictionary A OA). constructor. }
  assert (Lb : zlen b = f_count F) by (subst b; rewrite zlen_map, zlen_seq; lia).
  destruct (made_facts b (f_labels F) B D (eq_trans L (eq_sym Lb)) EB) as (C & LB & PC & T). split; [exact PC |]. right. split; [exact (eq_trans C Lb) |]. split; [exact LB |]. exists last, channel.
  intros c t t0 Ht Ht0 f y. destruct (T c t Ht) as (d & Hd & S). assert (Dd : dictionary d) by (rewrite Forall_forall in D; apply D; now apply zth_In in Hd).
  assert (d = fold_left (column A c) rows []) as ->.
  { pose proof (zth_range _ _ _ Ht0) as Rc. unfold f_count in *. subst b. rewrite zth_map, zth_seq in Hd. replace ((0 <=? c) && (c <? zlen (transfer_functions F))) with true in Hd by lia. cbn [option_map Z.add] in Hd. congruence. }
  assert (P0 : point t0 f y <-> value A t0 f = Some y) by (apply point_value, G; now apply zth_In in Ht0).
  pose proof (point_supported _ _ _ _ f y Dd S) as P1. specialize (H c t0 Ht0 f). destruct last as [z |]; rewrite ?P0, P1.
  - destruct H as (H1 & H2 & H3). split; [| split].
    + intros Lf. now rewrite H1.
    + intros Lf. rewrite H2 by exact Lf. discriminate.
    + intros Ef. destruct (H3 Ef) as [H4 H5]. split; intros Lc; [now rewrite H4 | rewrite H5 by exact Lc; discriminate].
  - rewrite H. discriminate.
Qed.

Lemma ignored c t1 r' : fst r' = None -> forall d, fold_left (column A c) (t1 ++ [r']) d = fold_left (column A c) t1 d.
Proof. intros E d. rewrite fold_left_app. cbn [fold_left]. unfold column at 1. now rewrite E. Qed.

Lemma table_points F fs n : bands_filter A F -> ascending A fs -> (forall f, In f fs <-> present A (transfer_functions F) f = true) -> n = f_count F ->
  forall t1 t2 extra, table_of A F fs = t1 ++ t2 ->
    (extra = [] \/ exists r', extra = [r'] /\ zlen (snd r') <= n /\
      (fst r' = None \/ exists r t3 before v v0 after, t2 = r :: t3 /\ fst r' = fst r /\ snd r' = before ++ [v] /\ snd r = before ++ v0 :: after)) ->
  exists last channel, forall c t0, zth (transfer_functions F) c = Some t0 -> forall f,
     match last with
     | None => dict_get A (fold_left (column A c) (t1 ++ extra) []) f = None
     | Some z => (x_ltb A f z = true -> dict_get A (fold_left (column A c) (t1 ++ extra) []) f = value A t0 f) /\
         (x_ltb A z f = true -> dict_get A (fold_left (column A c) (t1 ++ extra) []) f = None) /\
         (f = z -> (c < channel -> dict_get A (fold_left (column A c) (t1 ++ extra) []) f = value A t0 f) /\
                   (channel < c -> dict_get A (fold_left (column A c) (t1 ++ extra) []) f = None))
     end.
Proof.
  intros G S P -> t1 t2 extra E X0.
  (* no supporting points *)
  assert (None_case : forall t1 : table, (forall r, In r t1 -> fst r = None) -> forall c f, dict_get A (fold_left (column A c) t1 []) f = None).
  { intros t. induction t as [| r t IH] using rev_ind; intros Ht c f; [reflexivity |]. rewrite ignored by (apply Ht, in_app_iff; right; now left). apply IH. intros r' Hr'. apply Ht, in_app_iff. now left. }
  assert (Full : forall t1 : table, (exists t2, table_of A F fs = t1 ++ t2) -> exists last channel, forall c t0, zth (transfer_functions F) c = Some t0 -> forall f,
     match last with
     | None => dict_get A (fold_left (column A c) t1 []) f = None
     | Some z => (x_ltb A f z = true -> dict_get A (fold_left (column A c) t1 []) f = value A t0 f) /\
         (x_ltb A z f = true -> dict_get A (fold_left (column A c) t1 []) f = None) /\
         (f = z -> (c < channel -> dict_get A (fold_left (column A c) t1 []) f = value A t0 f) /\
                   (channel < c -> dict_get A (fold_left (column A c) t1 []) f = None))
     end).
  { clear t1 t2 extra E X0. intros t1 (t2 & E). destruct fs as [| f0 fs0] eqn:Efs.
    - exists None, 0. intros c t0 _ f. apply None_case. intros r Hr. assert (Hr' : In r (table_of A F [])) by (rewrite E; apply in_app_iff; now left).
      unfold table_of in Hr'. destruct (f_count F =? 0); [destruct Hr' |]. destruct Hr' as [<- | []]. reflexivity.
    - rewrite <- Efs in *. assert (E' : rows_of A (transfer_functions F) fs = t1 ++ t2) by (rewrite <- E, Efs; reflexivity). unfold rows_of in E'.
      apply map_eq_app in E' as (fs1 & fs2 & Ef & <- & _). destruct fs1 as [| z fs1 _] using rev_ind; [exists None, 0; reflexivity |].
      exists (Some z), (f_count F). intros c t0 Ht0 f. rewrite map_app. cbn [map]. rewrite Ef, <- app_assoc in S, P. cbn [app] in S, P.
      assert (Z0 : zlen (row_of A (transfer_functions F) z) = f_count F) by (unfold row_of; rewrite zlen_map; reflexivity).
      pose proof (last_row F fs1 z fs2 (row_of A (transfer_functions F) z) (f_count F) c t0 G S P ltac:(reflexivity) ltac:(intros i Hi; apply zth_out; lia) Ht0 f) as H. exact H. }
  destruct X0 as [-> | (r' & -> & _ & [X0 | (r & t3 & before & v & v0 & after & -> & Hf & H1 & H2)])].
  - rewrite app_nil_r. apply Full. now exists t2.
  - destruct (Full t1) as (last & channel & H); [now exists t2 |]. exists last, channel. intros c t0 Ht0 f. rewrite ignored by exact X0. now apply H.
  - destruct fs as [| f0 fs0] eqn:Efs.
    + exists None, 0. intros c t0 _ f. apply None_case. intros x Hx. assert (HT : forall y, In y (t1 ++ r :: t3) -> fst y = None).
      { intros y Hy. rewrite <- E in Hy. unfold table_of in Hy. destruct (f_count F =? 0); [destruct Hy |]. destruct Hy as [<- | []]. reflexivity. }
      apply in_app_iff in Hx as [Hx | [<- | []]]; [apply HT, in_app_iff; now left |]. rewrite Hf. apply HT, in_app_iff. right. now left.
    + rewrite <- Efs in *. assert (E' : rows_of A (transfer_functions F) fs = t1 ++ r :: t3) by (rewrite <- E, Efs; reflexivity). unfold rows_of in E'.
      apply map_eq_app in E' as (fs1 & fs2 & Ef & <- & E'). apply map_eq_cons in E' as (z & fs3 & -> & <- & _). cbn [fst snd] in *. exists (Some z), (zlen before). intros c t0 Ht0 f.
      rewrite Ef in S, P. destruct r' as [fr vr]. cbn [fst snd] in *. subst fr.
      refine (last_row F fs1 z fs3 vr (zlen before) c t0 G S P _ _ Ht0 f).
      * intros i Hi. rewrite H1, H2, !zth_app. now replace (i <? zlen before) with true by lia.
      * intros i Hi. rewrite H1. apply zth_out. rewrite zlen_app. change (zlen [v]) with 1. lia.
Qed.

Theorem bands_crash path F text p q B : (forall b, starts b "frequency" -> parse b = None) -> bands_filter A F -> zlen (f_labels F) = f_count F -> 0 <= limit ->
  frequencies F (stored nul limit show parse) -> values F (stored nul limit show_value parse_value) ->
  fits nul limit "frequency" -> Forall (fits nul limit) (f_labels F) ->
  save_bands_csv A show show_value F = Ok text -> text = p ++ q -> load_bands_csv A parse parse_value nul limit path p = Ok B -> incomplete A F B.
Proof.
  intros P G L Z GX GY Tf GL E -> H. destruct (as_table_sorted F G) as (fs & S & Pf & ET). pose proof (zlen_nonneg (transfer_functions F)) as N. fold (f_count F) in N.
  destruct (table_good A OA show show_value parse parse_value nul limit F (f_labels F) (table_of A F fs) G GX GY) as [_ GT]; [unfold write_csv; rewrite ET; reflexivity |].
  pose proof (BandsFiles.table_rows A F fs) as R.
  unfold save_bands_csv, write_csv in E. rewrite ET in E. cbn [bind fst snd] in E. injection E as E.
  assert (CF : cells_fit nul limit (("frequency"%string :: f_labels F) :: map line (table_of A F fs))).
  { assert (Fe : fits nul limit EmptyString). { split; [exact Z | right; intros []]. }
    constructor; [constructor; auto |]. apply Forall_map. eapply Forall_impl; [| exact GT]. intros r [Gr Gv]. constructor.
    - destruct (fst r); [apply Gr | exact Fe].
    - apply Forall_map. eapply Forall_impl; [| exact Gv]. intros [y |] Hy; [apply Hy | exact Fe]. }
  destruct (CsvCrash.truncated_text nul limit _ p q CF E) as (left & C & Er).
  unfold load_bands_csv in H. rewrite Er in H. cbn [bind] in H. clear E Er.
  assert (Pn : parse "frequency"%string = None) by (apply P; now exists EmptyString).
  assert (Full : forall body, left = ("frequency"%string :: f_labels F) :: body ->
    ((exists rest, map line (table_of A F fs) = body ++ rest) \/ exists before short row rest, body = before ++ [short] /\ map line (table_of A F fs) = before ++ row :: rest /\ shortened short row) ->
    incomplete A F B).
  { intros body -> HC. unfold read_bands_csv, process_texts in H. cbn [String.eqb] in H. rewrite Pn in H. cbn [bind fst snd app tl] in H.
    rewrite zlen_cons, zlen_nil in H. replace (1 + zlen (f_labels F) - 1 - 0) with (f_count F) in H by lia.
    destruct (process_rows A parse parse_value (zrepeat [] (f_count F)) body) as [b | e] eqn:Eb; [| discriminate]. cbn [bind] in H.
    destruct (table_read (f_count F) (table_of A F fs) _ body b N GT ltac:(intros r Hr; now rewrite (R r Hr)) eq_refl HC Eb) as (t1 & t2 & extra & Et & -> & X0).
    apply (read_points F _ B (t1 ++ extra) G L) with (2 := eq_refl) (3 := H).
    - intros r Hr. apply in_app_iff in Hr as [Hr | Hr]; [rewrite (R r); [lia | rewrite Et; apply in_app_iff; now left] |].
      destruct X0 as [-> | (r' & -> & Lr & _)]; [destruct Hr |]. destruct Hr as [<- | []]. exact Lr.
    - exact (table_points F fs (f_count F) G S Pf eq_refl t1 t2 extra Et X0). }
  destruct left as [| header body]; [discriminate |].
  destruct (cut_cases _ _ C) as [(rest & E) | (before & short & row & rest & E1 & E2 & Sh)].
  - injection E as E1 E2. subst header. apply (Full body eq_refl). left. now exists rest.
  - destruct before as [| h before].
    + cbn [app] in E1, E2. injection E1 as -> ->. injection E2 as <- _. clear Full. destruct Sh as (cb & b0 & c0 & ca & -> & E & St).
      assert (M : forall labels, (forall c l, zth labels c = Some l -> exists l', zth (f_labels F) c = Some l' /\ (l = l' \/ c = zlen labels - 1 /\ starts l l')) -> zlen labels <= f_count F ->
         mk_bands A (zrepeat [] (zlen labels)) (OneFlag Logarithmic) (OneFlag StairsLin) labels = Ok B -> incomplete A F B).
      { intros labels HL LL EB. pose proof (zlen_nonneg labels) as NL.
        destruct (made_facts (zrepeat [] (zlen labels)) labels B) as (Cb & LB & PC & T); auto; [apply Forall_forall; intros d Hd; apply repeat_spec in Hd; subst d; constructor | rewrite zlen_repeat; lia |].
        rewrite zlen_repeat, Z.max_r in Cb by lia. split; [exact PC |]. left. split; [lia |]. split; [rewrite LB; lia |]. split.
        - intros c l Hl. rewrite LB in Hl. rewrite Cb. now apply HL.
        - intros t f y Ht. apply In_zth in Ht as [c Ht]. destruct (T c t Ht) as (d & Hd & Sd). rewrite zth_repeat in Hd. destruct ((0 <=? c) && (c <? zlen labels)); [| discriminate]. injection Hd as <-.
          rewrite (point_supported [] _ _ t f y (NoDup_nil _) Sd). discriminate. }
      destruct cb as [| x cb].
      * cbn [app] in E, H. injection E as <- _. unfold read_bands_csv, process_texts in H. change (zlen [b0] - 1 - zlen (@nil (dict (X := X) K))) with 0 in H. cbn [zrepeat repeat Z.to_nat app] in H.
        rewrite (P b0 St) in H. apply (M []); [intros c l Hl; now rewrite zth_nil in Hl | exact N |]. destruct (String.eqb b0 EmptyString); cbn in H |- *; exact H.
      * injection E as <- E. cbn [app] in H. unfold read_bands_csv, process_texts in H. cbn [String.eqb] in H. rewrite Pn in H. cbn [bind fst snd app tl process_rows] in H.
        rewrite zlen_cons, zlen_nil in H. replace (1 + zlen (cb ++ [b0]) - 1 - 0) with (zlen (cb ++ [b0])) in H by lia. apply (M (cb ++ [b0])); [| | exact H].
        -- intros c l Hl. rewrite zth_app in Hl. rewrite E, zlen_app, zlen_cons, zlen_nil, zth_app. destruct (Z.ltb_spec c (zlen cb)); [eauto |].
           assert (c = zlen cb) as -> by (apply zth_range in Hl; change (zlen [b0]) with 1 in Hl; lia). rewrite Z.sub_diag in Hl |- *. injection Hl as <-. exists c0. split; [reflexivity |]. right. split; [lia | exact St].
        -- rewrite <- L, E, !zlen_app, !zlen_cons, zlen_nil. pose proof (zlen_nonneg ca). lia.
    + cbn [app] in E1, E2. injection E1 as -> ->. injection E2 as <- E2. apply (Full (before ++ [short]) eq_refl). right. exists before, short, row, rest. auto.
Qed.

(** The row with the labels can be loaded. *)
Theorem bands_header path F : parse "frequency"%string = None -> bands_filter A F -> zlen (f_labels F) = f_count F -> 0 < f_count F -> 0 <= limit ->
  fits nul limit "frequency" -> Forall (fits nul limit) (f_labels F) ->
  exists p q B, save_bands_csv A show show_value F = Ok (p ++ q) /\ q <> [] /\ load_bands_csv A parse parse_value nul limit path p = Ok B /\
    f_count (b_filter B) = f_count F /\ f_labels (b_filter B) = f_labels F /\ forall t f y, In t (transfer_functions (b_filter B)) -> ~ point t f y.
Proof.
  intros Pn G L C Z Tf GL. destruct (as_table_sorted F G) as (fs & _ & _ & ET).
  assert (D : Forall dictionary (zrepeat (@nil (X * K)) (f_count F))) by (apply Forall_forall; intros d Hd; apply repeat_spec in Hd; subst d; constructor).
  destruct (mk_bands_ok A OA (zrepeat [] (f_count F)) (OneFlag Logarithmic) (OneFlag StairsLin) (f_labels F) D) as (B & EB & _); [right; cbn; auto |].
  exists (csv_text [("frequency"%string :: f_labels F)]), (csv_text (map line (table_of A F fs))), B. split; [| split; [| split]].
  - unfold save_bands_csv, write_csv. rewrite ET. cbn [bind fst snd]. unfold csv_text, write_rows. cbn [map flat_map]. now rewrite app_nil_r.
  - pose proof (BandsFiles.table_nonempty A F fs C) as T. destruct (table_of A F fs) as [| r rows]; [easy |]. unfold csv_text, write_rows. cbn [map flat_map]. unfold write_row.
    intros H. apply app_eq_nil in H as [H _]. apply app_eq_nil in H as [_ H]. discriminate.
  - unfold load_bands_csv. rewrite text_csv_text by (constructor; [constructor; [exact Tf | exact GL] | constructor]). cbn [bind]. unfold read_bands_csv, process_texts. cbn [String.eqb]. rewrite Pn. cbn [bind fst snd app tl process_rows].
    rewrite zlen_cons, zlen_nil. replace (1 + zlen (f_labels F) - 1 - 0) with (f_count F) by lia. exact EB.
  - assert (Lr : zlen (zrepeat (@nil (X * K)) (f_count F)) = f_count F) by (rewrite zlen_repeat; lia).
    destruct (made_facts _ _ B D (eq_trans L (eq_sym Lr)) EB) as (C' & LB & _ & T). split; [exact (eq_trans C' Lr) |]. split; [exact LB |].
    intros t f y Ht. apply In_zth in Ht as [c Ht]. destruct (T c t Ht) as (d & Hd & Sd). rewrite zth_repeat in Hd. destruct ((0 <=? c) && (c <? f_count F)); [| discriminate]. injection Hd as <-.
    rewrite (point_supported [] _ _ t f y (NoDup_nil _) Sd). discriminate.
Qed.
End BandsCrash.
