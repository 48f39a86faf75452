(** CSV files with bands filters, but without a row for the labels. *)

From Coq Require Import String ZArith List Bool Lia ZifyBool.
From Verif.Model Require Import Py Tables Terms Filter Bands Csv Json JsonFiles CsvFiles.
From Verif.Model Require Pcm.
From Verif.Spec Require Import CsvSpec CsvFilesSpec BandsSpec.
From Verif.Proofs Require Import PyFacts BandsTables CsvFilesFacts CsvBands.
From Verif.Proofs Require BandsFiles.
Import ListNotations.
Open Scope list_scope.
Open Scope Z_scope.

Section PlainBands.
Context {K X : Type}.
Variable A : arithmetic K X.
Hypothesis OA : ordered A.
Variables (show : X -> string) (show_value : K -> string).
Variables (parse : string -> option X) (parse_value : string -> option K).
Variables (nul : bool) (limit : Z).

Lemma process_row_first (r : option X * list (option K)) : process_row A [] r = process_row A (zrepeat [] (zlen (snd r))) r.
Proof.
  unfold process_row. rewrite zlen_repeat, zlen_nil. pose proof (zlen_nonneg (snd r)). replace (zlen (snd r) - Z.max 0 (zlen (snd r))) with 0 by lia.
  rewrite Z.sub_0_r. cbn [app zrepeat repeat Z.to_nat]. now rewrite app_nil_r.
Qed.

Theorem plain_bands path F : bands_filter A F -> zlen (f_labels F) = f_count F -> 0 < f_count F -> 0 <= limit ->
  frequencies F (stored nul limit show parse) -> values F (stored nul limit show_value parse_value) ->
  exists text B, save_bands_csv A show show_value F = Ok (csv_text [("frequency"%string :: f_labels F)] ++ text) /\
    load_bands_csv A parse parse_value nul limit path text = Ok B /\
    restored F B (fun _ _ => Logarithmic) (fun _ _ => StairsLin) (fun c _ => Pcm.file_label path (c + 1)).
Proof.
  intros G L C Z GX GY. destruct (as_table_ok A OA F G) as (fs & N & P & Q & E). change (as_table A F = Ok (table_of A F fs)) in E.
  destruct (table_good A OA show show_value parse parse_value nul limit F (f_labels F) (table_of A F fs) G GX GY) as [_ GT]; [unfold write_csv; rewrite E; reflexivity |].
  pose proof (BandsFiles.table_nonempty A F fs C) as T. pose proof (BandsFiles.table_rows A F fs) as R.
  assert (Ef : fold_left (process_row A) (table_of A F fs) [] = columns A (f_count F) (table_of A F fs)).
  { assert (Ef : fold_left (process_row A) (table_of A F fs) (zrepeat [] (f_count F)) = columns A (f_count F) (table_of A F fs)).
    { rewrite (BandsFiles.process_rows_ok A (f_count F)); [| intros r Hr; now apply R | rewrite zlen_repeat; lia]. rewrite BandsFiles.repeat_map.
      apply (BandsFiles.updated_columns A (table_of A F fs) (f_count F) (Z.lt_le_incl _ _ C) R (fun _ => [])). }
    rewrite <- Ef. destruct (table_of A F fs) as [| r rows]; [easy |]. cbn [fold_left]. rewrite process_row_first, (R r) by now left. reflexivity. }
  destruct (columns_restored A OA F fs (OneFlag Logarithmic) (OneFlag StairsLin) (map (Pcm.file_label path) (zseq 1 (f_count F)))) as (B & EB & CB & _ & H);
    auto; [right; cbn; auto |].
  exists (csv_text (map (fun r => cell_of show (fst r) :: map (cell_of show_value) (snd r)) (table_of A F fs))), B. split; [| split].
  - unfold save_bands_csv, write_csv. rewrite E. cbn [bind fst snd]. unfold csv_text, write_rows. cbn [map flat_map]. now rewrite app_nil_r.
  - unfold load_bands_csv. rewrite text_csv_text.
    + cbn [bind]. rewrite <- Ef in EB. revert T GT EB R. destruct (table_of A F fs) as [| r rows]; intros T GT EB R; [easy |]. cbn [map read_bands_csv fold_left] in *.
      unfold read_bands_csv. rewrite (process_texts_row A show show_value parse parse_value nul limit [] r (Forall_inv GT)). cbn [bind fst snd].
      rewrite (process_rows_table A show show_value parse parse_value nul limit rows (Forall_inv_tail GT)). cbn [bind].
      rewrite zlen_cons, zlen_map, (R r) by now left. replace (1 + f_count F - 1) with (f_count F) by lia. exact EB.
    + assert (Fe : fits nul limit EmptyString). { split; [exact Z | right; intros []]. }
      apply Forall_map. eapply Forall_impl; [| exact GT]. intros r [Gr Gv]. constructor.
      * destruct (fst r); [apply Gr | exact Fe].
      * apply Forall_map. eapply Forall_impl; [| exact Gv]. intros [y |] Hy; [apply Hy | exact Fe].
  - eapply (BandsFiles.restored_by A F B Logarithmic StairsLin); eauto. intros c l l' Zl Hl'. apply (BandsFiles.file_labels path (f_count F) c); auto. apply zth_range in Zl. lia.
Qed.
End PlainBands.
