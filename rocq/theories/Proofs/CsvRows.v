(** Which CSV texts are loaded as bands filters. *)

From Coq Require Import String ZArith List Bool Lia ZifyBool.
From Verif.Model Require Import Py Tables Terms Filter Bands Csv Json JsonFiles CsvFiles.
From Verif.Spec Require Import CsvFilesSpec BandsSpec CsvRowsSpec.
From Verif.Proofs Require Import PyFacts FilterFacts BandsClass.
Import ListNotations.
Open Scope list_scope.
Open Scope Z_scope.

Section CsvRows.
Context {K X : Type}.
Variable A : arithmetic K X.
Hypothesis OA : ordered A.
Variables (parse : string -> option X) (parse_value : string -> option K).

Lemma cell_cases c : (c = EmptyString \/ parse_value c <> None) /\ (exists v, value_of_cell parse_value c = Ok v) \/
  (c <> EmptyString /\ parse_value c = None) /\ value_of_cell parse_value c = Err ValueError.
Proof.
  unfold value_of_cell. destruct (String.eqb_spec c EmptyString) as [E | E]; [left; split; [now left | now exists None] |].
  destruct (parse_value c) as [y |]; [left; split; [now right | now exists (Some y)] | right; now repeat split].
Qed.

Lemma cells_cases cells : (forall c, In c cells -> c = EmptyString \/ parse_value c <> None) /\ (exists v, sequence (map (value_of_cell parse_value) cells) = Ok v) \/
  (exists c, In c cells /\ c <> EmptyString /\ parse_value c = None) /\ sequence (map (value_of_cell parse_value) cells) = Err ValueError.
Proof.
  induction cells as [| c cells IH]; [left; split; [easy | now exists []] |]. cbn [map sequence].
  destruct (cell_cases c) as [[R [v E]] | [[N P] E]]; rewrite E; cbn [bind].
  - destruct IH as [[Rs [vs Es]] | [[d (I & N & P)] Es]]; rewrite Es; cbn [bind].
    + left. split; [intros d [<- | I]; [exact R | now apply Rs] | now exists (v :: vs)].
    + right. split; [exists d; split; [now right | now split] | reflexivity].
  - right. split; [exists c; split; [now left | now split] | reflexivity].
Qed.

Lemma row_cases (b : list (dict (X := X) K)) row : Forall dictionary b -> exists b', Forall dictionary b' /\
  (readable_row parse parse_value row /\ process_texts A parse parse_value b row = (b', None) \/
   ~ readable_row parse parse_value row /\ process_texts A parse parse_value b row = (b', Some (match row with [] => IndexError | _ => ValueError end))).
Proof.
  intros D. unfold process_texts. cbv zeta. match goal with |- context [b ++ ?r] => assert (D0 : Forall dictionary (b ++ r)); [| generalize dependent (b ++ r)] end.
  { apply Forall_app. split; [exact D |]. apply Forall_forall. intros d H. apply repeat_spec in H. subst d. constructor. }
  intros b0 D0. destruct row as [| f cells]; [exists b0; split; [exact D0 | right; split; [now intros (f & cells & E & _) | reflexivity]] |].
  destruct (String.eqb_spec f EmptyString) as [E | E]; [exists b0; split; [exact D0 | left; split; [exists f, cells; split; [reflexivity | now left] | reflexivity]] |].
  destruct (parse f) as [x |] eqn:P.
  2: { exists b0. split; [exact D0 | right; split; [| reflexivity]]. intros (f' & cells' & Er & [F | [N _]]); injection Er as <- <-; congruence. }
  destruct (cells_cases cells) as [[R [v Ev]] | [[c (I & N & Q)] Ev]]; rewrite Ev.
  - eexists. split; [| left; split; [exists f, cells; split; [reflexivity | right; split; [congruence | exact R]] | reflexivity]].
    apply Forall_app. split.
    + clear Ev. revert v. induction D0 as [| d ds Dd _ IH]; intros [| o v]; cbn; constructor; [| apply IH]. destruct o; [now apply dict_set_dictionary | exact Dd].
    + apply Forall_forall. intros d H. unfold zdrop in H. rewrite Forall_forall in D0. apply D0.
      rewrite <- (firstn_skipn (Z.to_nat (zlen v)) b0). apply in_or_app. now right.
  - exists b0. split; [exact D0 | right; split; [| reflexivity]].
    intros (f' & cells' & Er & [F | [_ R]]); injection Er as <- <-; [congruence |]. destruct (R c I); congruence.
Qed.

Lemma rows_cases rows : forall b : list (dict (X := X) K), Forall dictionary b ->
  Forall (readable_row parse parse_value) rows /\ (exists b', Forall dictionary b' /\ process_rows A parse parse_value b rows = Ok b') \/
  exists before row after, rows = before ++ row :: after /\ Forall (readable_row parse parse_value) before /\ ~ readable_row parse parse_value row /\
    process_rows A parse parse_value b rows = Err (match row with [] => IndexError | _ => ValueError end).
Proof.
  induction rows as [| row rows IH]; intros b D; [left; split; [constructor | now exists b] |]. cbn [process_rows].
  destruct (row_cases b row D) as (b' & D' & [[R E] | [N E]]); rewrite E.
  - destruct (IH b' D') as [[Rs H] | (before & r & after & Er & Rs & N & Ee)]; [left; split; [now constructor | exact H] |].
    right. exists (row :: before), r, after. split; [now rewrite Er |]. split; [now constructor | now split].
  - right. exists [], row, rows. now repeat split.
Qed.

(** A text is loaded, if and only if it has a first row, that is not blank, and all other rows are readable. *)
Theorem bands_rows nul limit path text first rows : text_csv nul limit text = Ok (first :: rows) ->
  (first <> [] /\ Forall (readable_row parse parse_value) rows -> exists B, load_bands_csv A parse parse_value nul limit path text = Ok B) /\
  (first = [] -> load_bands_csv A parse parse_value nul limit path text = Err IndexError) /\
  (forall before row after, first <> [] -> rows = before ++ row :: after -> Forall (readable_row parse parse_value) before -> ~ readable_row parse parse_value row ->
     load_bands_csv A parse parse_value nul limit path text = Err (match row with [] => IndexError | _ => ValueError end)).
Proof.
  intros T. unfold load_bands_csv. rewrite T. cbn [bind]. unfold read_bands_csv.
  destruct (row_cases (@nil (dict (X := X) K)) first (Forall_nil _)) as (b & D & F).
  assert (G : first <> [] -> exists labels, match process_texts A parse parse_value [] first with
             | (b, Some ValueError) => Ok (b, tl first)
             | (_, Some e) => Err e
             | (b, None) => Ok (b, map (Pcm.file_label path) (zseq 1 (zlen first - 1)))
             end = Ok (b, labels)).
  { intros N. destruct F as [[_ ->] | [_ ->]]; [eexists; reflexivity |]. destruct first; [easy |]. eexists; reflexivity. }
  split; [| split].
  - intros [N R]. destruct (G N) as [labels ->]. cbn [bind fst snd].
    destruct (rows_cases rows b D) as [[_ (b' & D' & ->)] | (before & row & after & E & _ & U & _)].
    + cbn [bind]. destruct (mk_bands_ok A OA b' (OneFlag Logarithmic) (OneFlag StairsLin) labels D') as (B & E & _); [right; now split | now exists B].
    + exfalso. apply U. rewrite E in R. apply Forall_app in R as [_ R]. exact (Forall_inv R).
  - intros ->. reflexivity.
  - intros before row after N E R U. destruct (G N) as [labels ->]. cbn [bind fst snd]. clear T F G N. subst rows. revert b D.
    induction before as [| r before IH]; intros b D; cbn [app process_rows].
    + destruct (row_cases b row D) as (b' & D' & [[C _] | [_ ->]]); [easy | reflexivity].
    + destruct (row_cases b r D) as (b' & D' & [[_ ->] | [C _]]); [apply IH; [exact (Forall_inv_tail R) | exact D'] | destruct (C (Forall_inv R))].
Qed.
End CsvRows.
