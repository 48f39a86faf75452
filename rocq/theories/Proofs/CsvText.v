(** CSV texts: the reader as one loop over the characters, what it makes of the texts of the specification, and truncated texts. *)

From Coq Require Import ZArith List Bool Lia ZifyBool.
From Verif.Model Require Import Py Csv.
From Verif.Spec Require Import CsvSpec.
From Verif.Proofs Require Import PyFacts.
Import ListNotations.
Open Scope list_scope.
Open Scope Z_scope.

(** ** Writing *)

Lemma special_ordinary c : special c = false <-> ordinary c.
Proof. unfold special, ordinary, comma, quote, cr, lf. lia. Qed.

Lemma escaped_doubled c : doubled (flat_map escaped c) c.
Proof.
  induction c as [|x c IH]; [constructor|]. cbn [flat_map]. unfold escaped at 1, quote. destruct (Z.eqb_spec x 34) as [-> |N]; cbn [app]; constructor; auto.
Qed.

Lemma write_cell_text c : cell_text (write_cell c) c.
Proof.
  unfold write_cell. destruct (existsb special c) eqn:E; [apply quoted_cell, escaped_doubled|]. apply plain_cell.
  apply Forall_forall. intros x I. apply special_ordinary. destruct (special x) eqn:S; auto. rewrite <- E. symmetry. apply existsb_exists. eauto.
Qed.

Lemma join_text cs : cs <> [] -> cells_text (join (map write_cell cs)) cs.
Proof.
  induction cs as [|c cs IH]; [easy|]. intros _. destruct cs as [|d cs]; [constructor; apply write_cell_text|].
  cbn [map join]. apply more_cells; [apply write_cell_text|]. apply IH. discriminate.
Qed.

Lemma join_nil cs : cs <> [] -> join (map write_cell cs) = [] -> cs = [[]].
Proof.
  destruct cs as [|c [|d cs]]; [easy| |]; intros _ H.
  - cbn in H. unfold write_cell in H. destruct (existsb special c); [discriminate|]. now subst.
  - exfalso. cbn [map join] in H. now apply app_eq_nil in H.
Qed.

Lemma write_row_text cs : exists t, write_row cs = t ++ [13; 10] /\ row_text t cs.
Proof.
  unfold write_row. destruct cs as [|c cs].
  - exists []. split; [reflexivity|constructor].
  - destruct (join (map write_cell (c :: cs))) as [|x t] eqn:J.
    + pose proof (join_nil (c :: cs) ltac:(discriminate) J) as E. rewrite E. exists [34; 34]. split; [reflexivity|].
      apply row_of_cells; [discriminate|]. apply last_cell. apply (quoted_cell []). constructor.
    + exists (x :: t). split; [reflexivity|]. apply row_of_cells; [discriminate|]. rewrite <- J. apply join_text. discriminate.
Qed.

Theorem write_rows_text rows : strict_text (write_rows rows) rows.
Proof.
  induction rows as [|cs rows IH]; [constructor|]. unfold write_rows. cbn [flat_map]. destruct (write_row_text cs) as (t & -> & T). rewrite <- app_assoc. now constructor.
Qed.

Lemma strict_file t rows : strict_text t rows -> file_text t rows.
Proof. induction 1; [constructor|]. apply more_rows; auto. constructor. Qed.

(** ** The reader as one loop *)
Section Reader.
Variable nul : bool.
Variable limit : Z.
Notation feed := (feed nul limit).
Notation records := (records nul limit).
Notation process := (process limit).

Definition step (p : parser) (c : Z) : result parser := if negb nul && (c =? 0) then Err RuntimeError else process p c.

(** The row, that is complete at the end of the text *)
Definition final (p : parser) : list (list Z) :=
  match p_state p with EatCrnl => p_fields p | _ => p_fields p ++ [p_field p] end.

(** A line ends with [c]. *)
Definition ends (c : Z) (text : list Z) : bool :=
  (c =? lf) || ((c =? cr) && negb (match text with d :: _ => d =? lf | [] => false end)).

Fixpoint run (p : parser) (text : list Z) : result (list (list (list Z))) :=
  match text with
  | [] => match p_state p with StartRecord => Ok [] | _ => Ok [final p] end
  | c :: text =>
      p <- step p c ;;
      if ends c text then
        match p_state (end_of_line p) with
        | StartRecord => rows <- run fresh text ;; Ok (p_fields (end_of_line p) :: rows)
        | _ => run (end_of_line p) text
        end
      else run p text
  end.

Lemma process_state p c p' : process p c = Ok p' -> p_state p' <> StartRecord.
Proof.
  unfold process, start_field, add, save. intros H. destruct (p_state p) eqn:S;
    repeat match type of H with (if ?b then _ else _) = _ => destruct b end; try discriminate; injection H as <-; cbn [p_state]; congruence.
Qed.

Lemma step_state p c p' : step p c = Ok p' -> p_state p' <> StartRecord.
Proof. unfold step. destruct (_ && _); [discriminate|]. apply process_state. Qed.

Lemma feed_step p c l : feed p (c :: l) = (p <- step p c ;; feed p l).
Proof. cbn [Csv.feed]. unfold step. now destruct (_ && _). Qed.

(** The end of a line *)
Definition close (p : parser) (ls : list (list Z)) : result (list (list (list Z))) :=
  match p_state p with
  | StartRecord => rows <- records fresh ls ;; Ok (p_fields p :: rows)
  | _ => records p ls
  end.

Lemma records_cons p l ls : records p (l :: ls) = (p <- feed p l ;; close p ls).
Proof. reflexivity. Qed.

Lemma close_end p : p_state p <> StartRecord -> close (end_of_line p) [] = Ok [final p].
Proof.
  intros N. unfold close, end_of_line, final. destruct (p_state p) eqn:S; try easy; cbn [p_state save p_fields p_field records bind]; rewrite ?S; try reflexivity.
  now destruct (p_field p).
Qed.

(** Lines, whose beginning has been read already *)
Definition continue (p : parser) (ls : list (list Z)) : result (list (list (list Z))) :=
  match ls with [] => close (end_of_line p) [] | _ => records p ls end.

Lemma records_char p c l ls : records p ((c :: l) :: ls) = (p <- step p c ;; continue p (l :: ls)).
Proof. rewrite records_cons, feed_step. destruct (step p c); [|reflexivity]. cbn [bind continue]. now rewrite records_cons. Qed.

Lemma continue_quoted p ls : p_state p = InQuotedField -> continue p ls = records p ls.
Proof. intros S. destruct ls; [|reflexivity]. cbn [continue]. unfold close, end_of_line. rewrite S, ?S. reflexivity. Qed.

Lemma end_of_line_state p : p_state (end_of_line p) = StartRecord \/ p_state (end_of_line p) = InQuotedField /\ end_of_line p = p.
Proof. unfold end_of_line. destruct (p_state p) eqn:S; auto. Qed.

Lemma run_lines n : forall text p, (length text <= n)%nat ->
  (p_state p <> StartRecord -> continue p (lines text) = run p text) /\ (p = fresh -> records p (lines text) = run p text).
Proof.
  induction n as [|n IH]; intros text p L.
  { destruct text; [|cbn in L; lia]. split; [intros S|intros ->; reflexivity]. cbn [lines continue run]. rewrite close_end by auto. now destruct (p_state p). }
  destruct text as [|c text]. { apply (IH [] p). cbn. lia. }
  assert (E : records p (lines (c :: text)) = run p (c :: text)).
  { cbn [lines run]. unfold ends. cbn [length] in L. destruct (Z.eqb_spec c lf) as [-> |Nl].
    - cbn [orb]. rewrite records_cons, feed_step. destruct (step p lf) as [p'|]; [|reflexivity]. cbn [bind Csv.feed]. unfold close.
      destruct (end_of_line_state p') as [S|[S Ep]]; rewrite S.
      + destruct (IH text fresh) as [_ H]; [lia|]. now rewrite H.
      + rewrite <- continue_quoted by auto. destruct (IH text (end_of_line p')) as [H _]; [lia|]. apply H. congruence.
    - cbn [orb]. destruct (Z.eqb_spec c cr) as [-> |Nc].
      + cbn [andb]. destruct text as [|d text].
        * cbn [negb]. rewrite records_cons, feed_step. destruct (step p cr) as [p'|]; [|reflexivity]. cbn [bind Csv.feed]. unfold close.
          destruct (end_of_line_state p') as [S|[S Ep]]; rewrite S; [reflexivity|]. rewrite <- continue_quoted by auto.
          destruct (IH [] (end_of_line p')) as [H _]; [cbn; lia|]. apply H. congruence.
        * destruct (Z.eqb_spec d lf) as [-> |Nd]; cbn [negb].
          -- rewrite records_cons, feed_step. destruct (step p cr) as [p'|]; [|reflexivity]. cbn [bind]. rewrite feed_step. cbn [run].
             change (ends lf text) with true. destruct (step p' lf) as [p2|]; [|reflexivity]. cbn [bind Csv.feed]. unfold close. cbn [length] in L.
             destruct (end_of_line_state p2) as [S|[S Ep]]; rewrite S.
             ++ destruct (IH text fresh) as [_ H]; [lia|]. now rewrite H.
             ++ rewrite <- continue_quoted by auto. destruct (IH text (end_of_line p2)) as [H _]; [lia|]. apply H. congruence.
          -- rewrite records_cons, feed_step. destruct (step p cr) as [p'|]; [|reflexivity]. cbn [bind Csv.feed]. unfold close.
             destruct (end_of_line_state p') as [S|[S Ep]]; rewrite S.
             ++ destruct (IH (d :: text) fresh) as [_ H]; [lia|]. rewrite H by auto. reflexivity.
             ++ rewrite <- continue_quoted by auto. destruct (IH (d :: text) (end_of_line p')) as [H _]; [lia|]. apply H. congruence.
      + cbn [andb]. destruct (lines text) as [|l ls] eqn:El.
        * rewrite records_char. destruct (step p c) as [p'|] eqn:Es; [|reflexivity]. cbn [bind]. pose proof (step_state _ _ _ Es) as S.
          destruct (IH text p') as [H _]; [lia|]. rewrite <- (H S), El. unfold continue. now rewrite records_cons.
        * rewrite records_char. destruct (step p c) as [p'|] eqn:Es; [|reflexivity]. cbn [bind]. pose proof (step_state _ _ _ Es) as S.
          destruct (IH text p') as [H _]; [lia|]. now rewrite <- (H S), El. }
  split; auto. intros _. rewrite <- E. unfold continue. destruct (lines (c :: text)) eqn:El; [|reflexivity]. exfalso. clear -El. cbn [lines] in El.
  destruct (c =? lf); [discriminate|]. destruct (c =? cr); [|destruct (lines text); discriminate]. destruct text as [|d t]; [discriminate|]. destruct (d =? lf); discriminate.
Qed.

Lemma read_run text : read_rows nul limit text = run fresh text.
Proof. now apply (run_lines (length text)). Qed.
End Reader.
