(** CSV files with bands filters. *)

From Coq Require Import String ZArith List Bool Lia ZifyBool.
From Verif.Model Require Import Py Tables Terms Filter Bands Csv Json JsonFiles CsvFiles.
From Verif.Spec Require Import CsvSpec CsvFilesSpec BandsSpec.
From Verif.Proofs Require Import PyFacts BandsTables CsvFilesFacts.
From Verif.Proofs Require BandsFiles.
Import ListNotations.
Open Scope list_scope.
Open Scope Z_scope.

Section BandsCsv.
Context {K X : Type}.
Variable A : arithmetic K X.
Hypothesis OA : ordered A.
Variables (show : X -> string) (show_value : K -> string).
Variables (parse : string -> option X) (parse_value : string -> option K).
Variables (nul : bool) (limit : Z).
Notation good := (stored nul limit show parse).
Notation good_value := (stored nul limit show_value parse_value).
Definition all {T} (P : T -> Prop) (x : option T) : Prop := match x with Some x => P x | None => True end.
Definition good_row (r : option X * list (option K)) : Prop := all good (fst r) /\ Forall (all good_value) (snd r).

Lemma values_read values : Forall (all good_value) values -> sequence (map (value_of_cell parse_value) (map (cell_of show_value) values)) = Ok values.
Proof.
  induction 1 as [|v values G _ IH]; [reflexivity|]. cbn [map sequence]. unfold value_of_cell at 1. destruct v as [y|]; cbn [cell_of].
  - destruct G as (N & _ & E). destruct (String.eqb_spec (show_value y) EmptyString); [easy|]. rewrite E. cbn [bind]. now rewrite IH.
  - cbn [String.eqb bind]. now rewrite IH.
Qed.

Lemma process_texts_row b (r : option X * list (option K)) : good_row r ->
  process_texts A parse parse_value b (cell_of show (fst r) :: map (cell_of show_value) (snd r)) = (process_row A b r, None).
Proof.
  intros [G GV]. unfold process_texts, process_row. rewrite zlen_cons, zlen_map. replace (1 + zlen (snd r) - 1 - zlen b) with (zlen (snd r) - zlen b) by lia.
  destruct (fst r) as [f|]; cbn [cell_of]; [|reflexivity]. destruct G as (N & _ & E). destruct (String.eqb_spec (show f) EmptyString); [easy|]. rewrite E, values_read by exact GV. reflexivity.
Qed.

Lemma process_rows_table rows : Forall good_row rows -> forall b, process_rows A parse parse_value b (map (fun r => cell_of show (fst r) :: map (cell_of show_value) (snd r)) rows)
  = Ok (fold_left (process_row A) rows b).
Proof. induction 1 as [|r rows G _ IH]; intros b; [reflexivity|]. cbn [map process_rows fold_left]. rewrite process_texts_row by exact G. apply IH. Qed.

Lemma read_bands_table path labels table : parse "frequency"%string = None -> Forall good_row table ->
  read_bands_csv A parse parse_value path (("frequency"%string :: labels) :: map (fun r => cell_of show (fst r) :: map (cell_of show_value) (snd r)) table)
  = Bands.read_csv A (labels, table).
Proof.
  intros P G. unfold read_bands_csv, Bands.read_csv, process_texts. cbn [String.eqb fst snd]. rewrite P. cbn [bind fst snd app tl].
  rewrite process_rows_table by exact G. cbn [bind]. do 3 f_equal. rewrite zlen_cons, zlen_nil. f_equal. lia.
Qed.

Lemma dict_get_in (d : list (X * K)) f y : dict_get A d f = Some y -> In y (map snd d).
Proof. induction d as [|p d IH]; [discriminate|]. destruct p as [x z]. cbn [dict_get map snd]. destruct (x_eqb A x f); [intros [= <-]; now left|right; auto]. Qed.

Lemma table_good F labels table : bands_filter A F -> frequencies F good -> values F good_value -> write_csv A F = Ok (labels, table) -> labels = f_labels F /\ Forall good_row table.
Proof.
  intros G Gx Gy E. destruct (as_table_ok A OA F G) as (fs & _ & _ & Q & T). unfold write_csv in E. rewrite T in E. cbn [bind] in E. injection E as <- <-.
  split; [reflexivity|]. apply Forall_forall. intros r Hr. destruct fs as [|f0 fs].
  - destruct (_ =? 0) in Hr; [destruct Hr|]. destruct Hr as [<-|[]]. split; [exact I|]. apply Forall_forall. intros v Hv. apply In_zth in Hv as [k Hv].
    cbn [snd] in Hv. rewrite zth_repeat in Hv. destruct (_ && _) in Hv; [now injection Hv as <-|discriminate].
  - apply in_map_iff in Hr as (f & <- & Hf). destruct (Q f Hf) as (t & xs & ys & i & e & Ht & -> & Hx). split; [now apply (Gx xs ys i e)|].
    cbn [snd]. apply Forall_forall. intros v Hv. apply in_map_iff in Hv as (t & <- & Hv). destruct (value A t f) as [y|] eqn:V; [|exact I].
    destruct t as [| | |xs' ys' i' e' | | | | | |]; try discriminate. cbn [value] in V. apply dict_get_in in V. apply in_map_iff in V as ((x' & y') & <- & V).
    apply in_combine_r in V. now apply (Gy xs' ys' i' e').
Qed.

Theorem bands_csv_file path F : parse "frequency"%string = None -> bands_filter A F -> zlen (f_labels F) = f_count F -> 0 <= limit ->
  frequencies F good -> values F good_value -> fits nul limit "frequency" -> Forall (fits nul limit) (f_labels F) ->
  exists text B, save_bands_csv A show show_value F = Ok text /\ load_bands_csv A parse parse_value nul limit path text = Ok B /\
    restored F B (fun _ _ => Logarithmic) (fun _ _ => StairsLin) (fun _ l => l).
Proof.
  intros P G L Z GX GY T GL. destruct (BandsFiles.csv_round_trip A OA F G L) as ((labels & table) & B & E & EB & H).
  destruct (table_good F labels table G GX GY E) as [-> GT].
  unfold save_bands_csv, load_bands_csv. rewrite E. cbn [bind fst snd]. eexists. exists B. split; [reflexivity|]. split; [|exact H]. rewrite text_csv_text.
  - cbn [bind]. now rewrite read_bands_table.
  - assert (Fe : fits nul limit EmptyString). { split; [exact Z|right; intros []]. }
    constructor; [constructor; auto|]. apply Forall_map. eapply Forall_impl; [|exact GT]. intros r [Gr Gv]. constructor.
    + destruct (fst r); [apply Gr|exact Fe].
    + apply Forall_map. eapply Forall_impl; [|exact Gv]. intros [y|] Hy; [apply Hy|exact Fe].
Qed.
End BandsCsv.
