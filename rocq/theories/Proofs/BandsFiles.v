(** Bands filters, that are read from the files, that have been written. *)

From Coq Require Import String ZArith List Bool Lia Permutation Sorted ZifyBool.
From Verif.Model Require Import Py Functions Signal Terms Filter Bands.
From Verif.Model Require Pcm.
From Verif.Spec Require Import BandsSpec.
From Verif.Proofs Require Import PyFacts SignalHelpers SignalAlgebra TableFacts LevelFacts BandsClass BandsTables.
Import ListNotations.
Open Scope Z_scope.

Section BandsFiles.
Context {K X : Type}.
Variable A : arithmetic K X.
Hypothesis OA : ordered A.

(** One row changes all columns. *)
Definition updated (r : option X * list (option K)) (b : list (dict K)) : list (dict K) :=
  map2 (fun v d => match fst r, v with Some f, Some y => dict_set A d f y | _, _ => d end) (snd r) b.

Lemma updated_map r n (D : Z -> dict K) : 0 <= n -> zlen (snd r) = n -> updated r (map D (zseq 0 n)) = map (fun c => column A c (D c) r) (zseq 0 n).
Proof.
  intros N L. apply zth_ext. intros i. unfold updated. rewrite zth_map2, !zth_map, !zth_seq.
  destruct (Z.leb_spec 0 i); [destruct (Z.ltb_spec i n)|]; cbn [andb option_map].
  - destruct (zth_in (snd r) i) as (v & Hv); [lia|]. rewrite Hv. unfold column. cbn [Z.add]. rewrite Hv. now destruct (fst r), v.
  - now destruct (zth (snd r) i).
  - now destruct (zth (snd r) i).
Qed.

Lemma updated_columns rows n : 0 <= n -> (forall r, In r rows -> zlen (snd r) = n) -> forall D,
  fold_left (fun b r => updated r b) rows (map D (zseq 0 n)) = map (fun c => fold_left (column A c) rows (D c)) (zseq 0 n).
Proof.
  intros N. induction rows as [|r rows IH]; intros H D; cbn [fold_left]; auto. rewrite updated_map by (auto; apply H; now left).
  rewrite (IH (fun r Hr => H r (or_intror Hr)) (fun c => column A c (D c) r)). reflexivity.
Qed.

Lemma repeat_map {T} (x : T) n : zrepeat x n = map (fun _ => x) (zseq 0 n).
Proof.
  apply zth_ext. intros i. rewrite zth_repeat, zth_map, zth_seq. now destruct ((0 <=? i) && (i <? n)).
Qed.

Lemma table_rows F fs r : In r (table_of A F fs) -> zlen (snd r) = f_count F.
Proof.
  unfold table_of. pose proof (zlen_nonneg (transfer_functions F)). destruct fs as [|f fs].
  - unfold f_count. destruct (_ =? 0); [intros []|]. intros [<-|[]]. cbn. rewrite zlen_repeat. lia.
  - intros Hr. apply in_map_iff in Hr. destruct Hr as (g & <- & _). cbn. unfold row_of. now rewrite zlen_map.
Qed.

Lemma table_nonempty F fs : 0 < f_count F -> table_of A F fs <> [].
Proof. unfold table_of. intros H. destruct fs; [|discriminate]. destruct (Z.eqb_spec (f_count F) 0); [lia|discriminate]. Qed.

Lemma count_zero F : bands_filter A F -> f_count F = 0 -> forall fs, (forall f, In f fs <-> present A (transfer_functions F) f = true) -> fs = [].
Proof.
  intros _ H fs P. destruct fs as [|f fs]; auto. destruct (P f) as (Q & _). specialize (Q (or_introl eq_refl)).
  unfold f_count in H. apply zlen_zero in H. now rewrite H in Q.
Qed.

Section Text.
Variable is_float : X -> bool.
Variable is_real : K -> bool.
Variable zero : X.

Lemma read_columns_ok fr cells : forall bs, zlen bs = zlen cells ->
  read_columns A fr (map (number is_real) cells) bs = Ok (updated (fr, cells) bs).
Proof.
  unfold updated. cbn [fst snd]. induction cells as [|v cells IH]; intros [|b bs] L; rewrite ?zlen_cons, ?zlen_nil in L; auto;
    try (pose proof (zlen_nonneg cells)); try (pose proof (zlen_nonneg bs)); try lia.
  cbn [map read_columns map2]. rewrite IH by lia. cbn [bind]. destruct fr, v; cbn; auto. now destruct (is_real k).
Qed.

Lemma read_columns_first fr cells : read_columns A fr (map (number is_real) cells) [] = Ok (updated (fr, cells) (zrepeat [] (zlen cells))).
Proof.
  unfold updated. cbn [fst snd]. induction cells as [|v cells IH]; auto.
  cbn [map read_columns]. rewrite IH. cbn [bind]. rewrite zlen_cons. pose proof (zlen_nonneg cells).
  unfold zrepeat. replace (Z.to_nat (1 + zlen cells)) with (S (Z.to_nat (zlen cells))) by lia. cbn [repeat map2].
  destruct fr, v; cbn; auto. now destruct (is_real k).
Qed.

Definition line_of (r : option X * list (option K)) := (number is_float (fst r), map (number is_real) (snd r)).

Lemma read_line_ok gnuplot r bs : (forall f, fst r = Some f -> is_float f = true /\ x_ltb A f zero = false) -> zlen bs = zlen (snd r) ->
  read_line A zero gnuplot bs (line_of r) = Ok (updated r bs) .
Proof.
  intros H L. destruct r as [fr cells]. unfold read_line, line_of. cbn [fst snd] in *. destruct fr as [f|].
  - destruct (H f eq_refl) as (Hf & Hz). cbn [number]. rewrite Hf. cbn [starts_table]. rewrite Hz. cbn [negb bind]. now apply read_columns_ok.
  - cbn. now apply read_columns_ok.
Qed.

Lemma read_line_first gnuplot r : (forall f, fst r = Some f -> is_float f = true /\ x_ltb A f zero = false) ->
  read_line A zero gnuplot [] (line_of r) = Ok (updated r (zrepeat [] (zlen (snd r)))) .
Proof.
  intros H. destruct r as [fr cells]. unfold read_line, line_of. cbn [fst snd] in *. destruct fr as [f|].
  - destruct (H f eq_refl) as (Hf & Hz). cbn [number]. rewrite Hf. cbn [starts_table]. rewrite Hz. cbn [negb bind]. now apply read_columns_first.
  - cbn. now apply read_columns_first.
Qed.

Lemma updated_length r bs : zlen bs = zlen (snd r) -> zlen (updated r bs) = zlen bs.
Proof. intros L. unfold updated. rewrite zlen_map2. lia. Qed.

Lemma read_lines_ok gnuplot n rows : (forall r, In r rows -> zlen (snd r) = n /\ forall f, fst r = Some f -> is_float f = true /\ x_ltb A f zero = false) ->
  forall bs, zlen bs = n -> for_each (map line_of rows) (read_line A zero gnuplot) bs = Ok (fold_left (fun b r => updated r b) rows bs).
Proof.
  induction rows as [|r rows IH]; intros H bs L; cbn [map for_each fold_left]; auto. destruct (H r (or_introl eq_refl)) as (Hl & Hf).
  rewrite read_line_ok by (auto; lia). cbn [bind]. apply IH; [intros; apply H; now right|]. rewrite updated_length; lia.
Qed.

Lemma read_all_lines gnuplot n rows : 0 <= n -> (rows = [] -> n = 0) ->
  (forall r, In r rows -> zlen (snd r) = n /\ forall f, fst r = Some f -> is_float f = true /\ x_ltb A f zero = false) ->
  for_each (map line_of rows) (read_line A zero gnuplot) [] = Ok (columns A n rows).
Proof.
  intros N E H. unfold columns. destruct rows as [|r rows].
  - rewrite (E eq_refl). reflexivity.
  - destruct (H r (or_introl eq_refl)) as (Hl & Hf). cbn [map for_each]. rewrite read_line_first by auto. cbn [bind].
    rewrite (read_lines_ok gnuplot n); [|intros r' Hr'; apply H; now right|rewrite updated_length; rewrite zlen_repeat; lia].
    f_equal. rewrite Hl, repeat_map. change (fold_left (fun b r => updated r b) (r :: rows) (map (fun _ => []) (zseq 0 n)) = map (fun c => fold_left (column A c) (r :: rows) []) (zseq 0 n)).
    apply (updated_columns (r :: rows) n N (fun r Hr => proj1 (H r Hr)) (fun _ => [])).
Qed.

Lemma file_labels path n c l : 0 <= c < n -> label_of (map (Pcm.file_label path) (zseq 1 n)) c l -> l = Pcm.file_label path (c + 1).
Proof.
  intros Hc [H|(H & _)].
  - rewrite zth_map, zth_seq in H. replace ((0 <=? c) && (c <? n)) with true in H by lia. cbn [option_map] in H. rewrite (Z.add_comm c 1). congruence.
  - rewrite zlen_map, zlen_seq in H. lia.
Qed.

Lemma own_labels (labels : list string) c l l' : zth labels c = Some l -> label_of labels c l' -> l' = l.
Proof. intros H [H'|(H' & _)]; [congruence|]. apply zth_range in H. lia. Qed.

Lemma restored_by F B i e labels label : zlen (f_labels F) = f_count F -> bands_filter A F -> f_count (b_filter B) = f_count F ->
  (forall c xs ys ic ec, zth (transfer_functions F) c = Some (Bands xs ys ic ec) -> exists i' e' l,
      flag_of (OneFlag i) c i' /\ flag_of (OneFlag e) c e' /\ label_of labels c l /\
      zth (transfer_functions (b_filter B)) c = Some (Bands xs ys i' (extrapolated e')) /\ zth (f_labels (b_filter B)) c = Some l) ->
  (forall c l l', zth (f_labels F) c = Some l -> label_of labels c l' -> l' = label c l) ->
  restored F B (fun _ _ => i) (fun _ _ => extrapolated e) label.
Proof.
  intros L G C H Hl. split; auto. split.
  - intros c xs ys ic ec Ht. destruct (H _ _ _ _ _ Ht) as (i' & e' & l & Hi & He & _ & Z & _). cbn in Hi, He. now subst.
  - intros c l Zl. destruct (zth_in (transfer_functions F) c) as (t & Ht); [apply zth_range in Zl; unfold f_count in L; lia|].
    destruct (G t) as (xs & ys & ic & ec & -> & _); [now apply zth_In in Ht|].
    destruct (H _ _ _ _ _ Ht) as (i' & e' & l' & _ & _ & L' & _ & Z'). rewrite Z'. f_equal. now apply Hl.
Qed.

Lemma text_round_trip F gnuplot path : bands_filter A F -> zlen (f_labels F) = f_count F ->
  frequencies F (fun f => is_float f = true /\ x_ltb A f zero = false) ->
  exists lines B, write_text A is_float is_real F = Ok lines /\ read_text A zero gnuplot path lines = Ok B /\
    restored F B (fun _ _ => Logarithmic) (fun _ _ => StairsLin) (fun c _ => Pcm.file_label path (c + 1)).
Proof.
  intros G L Fr. destruct (as_table_ok A OA F G) as (fs & N & P & Q & E). change (as_table A F = Ok (table_of A F fs)) in E. pose proof (zlen_nonneg (transfer_functions F)) as Nn.
  assert (Rl : for_each (map line_of (table_of A F fs)) (read_line A zero gnuplot) [] = Ok (columns A (f_count F) (table_of A F fs))).
  { apply read_all_lines; [exact Nn| |].
    - intros T. destruct (Z.eq_dec (f_count F) 0); auto. elim (table_nonempty F fs); auto. unfold f_count in *. lia.
    - intros r Hr. split; [now apply table_rows in Hr|]. intros f Hf. unfold table_of in Hr. destruct fs as [|f0 fs'].
      + destruct (_ =? 0); [destruct Hr|]. destruct Hr as [<-|[]]. discriminate.
      + apply in_map_iff in Hr. destruct Hr as (g & <- & Hg). injection Hf as <-. destruct (Q g Hg) as (t & xs & ys & i & e & Ht & -> & Hx).
        now apply (Fr xs ys i e). }
  destruct (columns_restored A OA F fs (OneFlag Logarithmic) (OneFlag StairsLin) (map (Pcm.file_label path) (zseq 1 (zlen (columns A (f_count F) (table_of A F fs))))))
    as (B & EB & C & _ & H); auto; [right; cbn; auto|].
  exists (map line_of (table_of A F fs)), B. split; [unfold write_text; now rewrite E|]. split; [unfold read_text; rewrite Rl; exact EB|].
  eapply (restored_by F B Logarithmic StairsLin); eauto. intros c l l' Zl Hl'. cbn beta.
  apply (file_labels path (f_count F) c); [apply zth_range in Zl; lia|].
  destruct (columns_ok A OA F fs G N P) as (Lc & _). rewrite Lc in Hl'. exact Hl'.
Qed.

End Text.

Lemma process_row_ok n r bs : zlen bs = n -> zlen (snd r) = n -> process_row A bs r = updated r bs.
Proof.
  intros L1 L2. unfold process_row, updated. rewrite L2, L1, Z.sub_diag. cbn [zrepeat repeat Z.to_nat]. rewrite app_nil_r.
  destruct r as [[f|] cells]; cbn [fst snd] in *.
  - unfold zdrop. unfold zlen in L1, L2. rewrite <- L1, Nat2Z.id, skipn_all, app_nil_r.
    clear. revert bs. induction cells as [|v cells IH]; intros [|b bs]; cbn; auto.
  - assert (Gen : forall (cells : list (option K)) (bs : list (@dict X K)), zlen bs = zlen cells -> map2 (fun _ d => d) cells bs = bs).
    { clear. induction cells as [|v cells IH]; intros [|b bs] L; auto; rewrite ?zlen_cons, ?zlen_nil in L; try (pose proof (zlen_nonneg cells)); try (pose proof (zlen_nonneg bs)); try lia.
      cbn. now rewrite IH by lia. }
    symmetry. etransitivity; [|apply (Gen cells bs); lia]. clear. revert bs. induction cells as [|v cells IH]; intros [|b bs]; cbn; auto.
Qed.

Lemma process_rows_ok n rows : (forall r, In r rows -> zlen (snd r) = n) -> forall bs, zlen bs = n ->
  fold_left (process_row A) rows bs = fold_left (fun b r => updated r b) rows bs.
Proof.
  induction rows as [|r rows IH]; intros H bs L; cbn [fold_left]; auto. rewrite (process_row_ok n) by (auto; apply H; now left).
  apply IH; [intros; apply H; now right|]. rewrite updated_length; auto. rewrite H by now left. auto.
Qed.

Lemma csv_round_trip F : bands_filter A F -> zlen (f_labels F) = f_count F ->
  exists file B, write_csv A F = Ok file /\ read_csv A file = Ok B /\ restored F B (fun _ _ => Logarithmic) (fun _ _ => StairsLin) (fun _ l => l).
Proof.
  intros G L. destruct (as_table_ok A OA F G) as (fs & N & P & Q & E). change (as_table A F = Ok (table_of A F fs)) in E. pose proof (zlen_nonneg (transfer_functions F)) as Nn.
  assert (Ef : fold_left (process_row A) (table_of A F fs) (zrepeat [] (f_count F)) = columns A (f_count F) (table_of A F fs)).
  { rewrite (process_rows_ok (f_count F)); [|intros r Hr; now apply table_rows in Hr|rewrite zlen_repeat; unfold f_count; lia].
    rewrite repeat_map. apply (updated_columns (table_of A F fs) (f_count F) Nn (fun r Hr => table_rows F fs r Hr) (fun _ => [])). }
  destruct (columns_restored A OA F fs (OneFlag Logarithmic) (OneFlag StairsLin) (f_labels F)) as (B & EB & C & _ & H); auto; [right; cbn; auto|].
  exists (f_labels F, table_of A F fs), B. split; [unfold write_csv; now rewrite E|].
  split; [unfold read_csv; cbn [fst snd]; rewrite L, Ef; exact EB|]. eapply (restored_by F B Logarithmic StairsLin); eauto. intros c l l'. apply own_labels.
Qed.

Lemma array_ok F fs : 0 < f_count F -> array_columns (table_of A F fs) = f_count F /\ as_array (table_of A F fs) = Ok (table_of A F fs).
Proof.
  intros H. assert (Ec : array_columns (table_of A F fs) = f_count F).
  { pose proof (table_nonempty F fs H) as T. pose proof (table_rows F fs) as R. unfold array_columns. destruct (table_of A F fs) as [|r t]; [now elim T|].
    clear T. assert (G : forall l : list (option X * list (option K)), (forall r, In r l -> zlen (snd r) = f_count F) -> fold_right Z.max 0 (map (fun r => zlen (snd r)) l) = if (zlen l =? 0) then 0 else f_count F).
    { clear -H. induction l as [|r l IH]; intros R; auto. cbn [map fold_right]. rewrite IH by (intros; apply R; now right). rewrite (R r) by now left.
      rewrite zlen_cons. pose proof (zlen_nonneg l). destruct (Z.eqb_spec (zlen l) 0), (Z.eqb_spec (1 + zlen l) 0); lia. }
    rewrite (G (r :: t) R), zlen_cons. pose proof (zlen_nonneg t). destruct (Z.eqb_spec (1 + zlen t) 0); lia. }
  split; auto. unfold as_array. rewrite Ec. rewrite <- (map_id (table_of A F fs)) at 2.
  apply (sequence_map_ok _ (fun r => r)). intros r Hr. rewrite (table_rows F fs r Hr), Z.eqb_refl. reflexivity.
Qed.

Lemma npy_round_trip F path : bands_filter A F -> zlen (f_labels F) = f_count F -> 0 < f_count F ->
  exists file B, write_npy A F = Ok file /\ read_npy A path file = Ok B /\
    restored F B (fun _ _ => Linear) (fun _ _ => StairsLin) (fun c _ => Pcm.file_label path (c + 1)).
Proof.
  intros G L Hn. destruct (as_table_ok A OA F G) as (fs & N & P & Q & E). change (as_table A F = Ok (table_of A F fs)) in E.
  destruct (array_ok F fs Hn) as (Ec & Ea). exists (f_count F, table_of A F fs). unfold write_npy, read_npy. rewrite E. cbn [bind]. rewrite Ea, Ec. cbn [bind fst].
  destruct (columns_restored A OA F fs (OneFlag Linear) (OneFlag StairsLin) (map (Pcm.file_label path) (zseq 1 (f_count F)))) as (B & EB & C & _ & H); auto; [right; cbn; auto|].
  exists B. split; auto. split; [exact EB|]. eapply (restored_by F B Linear StairsLin); eauto. intros c l l' Zl Hl'.
  apply (file_labels path (f_count F) c); auto. apply zth_range in Zl; lia.
Qed.

Lemma flags_of_ok F : bands_filter A F -> zlen (flags_of F) = f_count F /\
  forall c xs ys i e, zth (transfer_functions F) c = Some (Bands xs ys i e) -> zth (flags_of F) c = Some (i, e).
Proof.
  unfold bands_filter, flags_of, f_count. induction (transfer_functions F) as [|t tfs IH]; intros G.
  - split; auto. intros c xs ys i e H. now rewrite zth_nil in H.
  - destruct (G t (or_introl eq_refl)) as (xs & ys & i & e & -> & _). destruct IH as (L & H); [intros t Ht; apply G; now right|].
    cbn [flat_map app]. rewrite !zlen_cons, L. split; auto. intros c xs' ys' i' e'. rewrite !zth_cons. destruct (c =? 0); [congruence|]. apply H.
Qed.

Lemma npz_round_trip F : bands_filter A F -> zlen (f_labels F) = f_count F -> 0 < f_count F ->
  exists file B, write_npz A F = Ok file /\ read_npz A file = Ok B /\ restored F B (fun _ i => i) (fun _ e => extrapolated e) (fun _ l => l).
Proof.
  intros G L Hn. destruct (as_table_ok A OA F G) as (fs & N & P & Q & E). change (as_table A F = Ok (table_of A F fs)) in E.
  destruct (array_ok F fs Hn) as (Ec & Ea). destruct (flags_of_ok F G) as (Lf & Hf).
  exists (f_count F, table_of A F fs, flags_of F, f_labels F). unfold write_npz, write_npy, read_npz. rewrite E. cbn [bind]. rewrite Ea, Ec. cbn [bind].
  assert (Nf : flags_of F <> []) by (intros Z; rewrite Z in Lf; change (zlen (@nil (interpolation * interpolation))) with 0 in Lf; lia).
  destruct (columns_restored A OA F fs (Flags (map fst (flags_of F))) (Flags (map snd (flags_of F))) (f_labels F)) as (B & EB & C & _ & H); auto.
  { right. cbn. split; intros Z; now apply map_eq_nil in Z. }
  exists B. split; auto. split; [exact EB|]. split; auto. split.
  - intros c xs ys ic ec Ht. destruct (H _ _ _ _ _ Ht) as (i' & e' & l & Hi & He & _ & Z & _). cbn in Hi, He. pose proof (Hf _ _ _ _ _ Ht) as Zf.
    apply zth_range in Ht. unfold f_count in *. rewrite !zlen_map, Z.min_l, zth_map, Zf in Hi, He by lia. cbn in Hi, He. congruence.
  - intros c l Zl. destruct (zth_in (transfer_functions F) c) as (t & Ht); [apply zth_range in Zl; unfold f_count in L; lia|].
    destruct (G t) as (xs & ys & ic & ec & -> & _); [now apply zth_In in Ht|].
    destruct (H _ _ _ _ _ Ht) as (i' & e' & l' & _ & _ & L' & _ & Z'). rewrite Z'. f_equal. now apply (own_labels (f_labels F) c).
Qed.

End BandsFiles.
