(** What the reader makes of texts of the specification, of truncated texts and of arbitrary texts. *)

From Coq Require Import ZArith List Bool Lia ZifyBool.
From Verif.Model Require Import Py Csv.
From Verif.Spec Require Import CsvSpec.
From Verif.Proofs Require Import PyFacts CsvText.
Import ListNotations.
Open Scope list_scope.
Open Scope Z_scope.

Section Reader.
Variable nul : bool.
Variable limit : Z.
Notation run := (run nul limit).
Notation step := (step nul limit).
Notation readable := (readable nul).

Lemma readable_step p x t : readable (x :: t) -> step p x = process limit p x.
Proof.
  intros [-> |N]; [reflexivity|]. unfold CsvText.step. destruct (Z.eqb_spec x 0) as [-> |E]; [elim N; now left|]. now rewrite andb_false_r.
Qed.
Lemma readable_tail x t : readable (x :: t) -> readable t.
Proof. intros [-> |N]; [now left|]. right. intros I. apply N. now right. Qed.
Lemma readable_app t t' : readable (t ++ t') -> readable t /\ readable t'.
Proof. intros [-> |N]; [split; now left|]. split; right; intros I; apply N, in_app_iff; auto. Qed.

Lemma add_ok p c s : zlen (p_field p) < limit -> add limit p c s = Ok (Parser s (p_field p ++ [c]) (p_fields p)).
Proof. intros H. unfold add. now rewrite (proj2 (Z.leb_gt limit (zlen (p_field p)))). Qed.
Lemma add_long p c s : limit <= zlen (p_field p) -> add limit p c s = Err RuntimeError.
Proof. intros H. unfold add. now rewrite (proj2 (Z.leb_le limit (zlen (p_field p)))). Qed.

Lemma run_in p x t : readable (x :: t) -> run p (x :: t) =
  (p <- process limit p x ;;
   if ends x t then
     match p_state (end_of_line p) with
     | StartRecord => rows <- run fresh t ;; Ok (p_fields (end_of_line p) :: rows)
     | _ => run (end_of_line p) t
     end
   else run p t).
Proof. intros R. cbn [CsvText.run]. now rewrite (readable_step _ _ _ R). Qed.

Lemma not_ends x t : x <> 10 -> x <> 13 -> ends x t = false.
Proof. unfold ends, lf, cr. lia. Qed.

(** *** Quoted cells *)
Lemma run_quoted_char f fs x t : readable (x :: t) -> x <> 34 -> zlen f < limit ->
  run (Parser InQuotedField f fs) (x :: t) = run (Parser InQuotedField (f ++ [x]) fs) t.
Proof.
  intros R N L. rewrite run_in by auto. cbn [process p_state]. unfold process, quote. cbn [p_state]. rewrite (proj2 (Z.eqb_neq _ _) N), add_ok by auto.
  cbn [bind end_of_line p_state p_field p_fields]. now destruct (ends x t).
Qed.

Lemma run_quoted_quote f fs t : readable (34 :: t) -> run (Parser InQuotedField f fs) (34 :: t) = run (Parser QuoteInQuotedField f fs) t.
Proof. intros R. rewrite run_in by auto. reflexivity. Qed.

Lemma run_second_quote f fs t : readable (34 :: t) -> zlen f < limit -> run (Parser QuoteInQuotedField f fs) (34 :: t) = run (Parser InQuotedField (f ++ [34]) fs) t.
Proof. intros R L. rewrite run_in by auto. cbv [process quote]. cbn [p_state]. change (34 =? 34) with true. cbv iota. rewrite add_ok by auto. reflexivity. Qed.

Lemma run_quoted t c : doubled t c -> forall f fs rest, readable (t ++ rest) -> zlen f + zlen c <= limit ->
  run (Parser InQuotedField f fs) (t ++ rest) = run (Parser InQuotedField (f ++ c) fs) rest.
Proof.
  induction 1 as [|t c D IH|x t c N D IH]; intros f fs rest R L.
  - now rewrite app_nil_r.
  - cbn [app] in *. rewrite zlen_cons in L. pose proof (zlen_nonneg c). pose proof (readable_tail _ _ R) as R'. pose proof (readable_tail _ _ R') as R2.
    rewrite run_quoted_quote, run_second_quote by (auto; lia). rewrite IH by (auto; rewrite zlen_app, zlen_cons, zlen_nil; lia). now rewrite <- app_assoc.
  - cbn [app] in *. rewrite zlen_cons in L. pose proof (zlen_nonneg c). pose proof (readable_tail _ _ R) as R'.
    rewrite run_quoted_char by (auto; lia). rewrite IH by (auto; rewrite zlen_app, zlen_cons, zlen_nil; lia). now rewrite <- app_assoc.
Qed.

(** *** Plain cells *)
Lemma run_plain_char s f fs x t : readable (x :: t) -> ordinary x -> zlen f < limit -> s = StartRecord \/ s = StartField \/ s = InField ->
  run (Parser s f fs) (x :: t) = run (Parser InField (f ++ [x]) fs) t.
Proof.
  intros R (N1 & N2 & N3 & N4) L S. rewrite run_in, not_ends by auto. unfold process, start_field, quote, comma, lf, cr.
  rewrite (proj2 (Z.eqb_neq _ _) N1), (proj2 (Z.eqb_neq _ _) N2), (proj2 (Z.eqb_neq _ _) N3), (proj2 (Z.eqb_neq _ _) N4).
  destruct S as [-> |[-> | ->]]; cbn [p_state orb]; rewrite add_ok by auto; reflexivity.
Qed.

Lemma run_plain c : Forall ordinary c -> forall f fs rest, readable (c ++ rest) -> zlen f + zlen c <= limit ->
  run (Parser InField f fs) (c ++ rest) = run (Parser InField (f ++ c) fs) rest.
Proof.
  induction 1 as [|x c O _ IH]; intros f fs rest R L.
  - now rewrite app_nil_r.
  - cbn [app] in *. rewrite zlen_cons in L. pose proof (zlen_nonneg c). rewrite run_plain_char by (auto; lia). pose proof (readable_tail _ _ R).
    rewrite IH by (auto; rewrite zlen_app, zlen_cons, zlen_nil; lia). now rewrite <- app_assoc.
Qed.

(** *** Cells *)
Definition opened (s : state) : Prop := s = StartRecord \/ s = StartField.
Definition closable (s : state) : Prop := s = StartField \/ s = InField \/ s = QuoteInQuotedField.

Lemma run_open_quote s fs t : opened s -> readable (34 :: t) -> run (Parser s [] fs) (34 :: t) = run (Parser InQuotedField [] fs) t.
Proof. intros [-> | ->] R; now rewrite run_in by auto. Qed.

Lemma run_cell t c s fs : cell_text t c -> opened s -> zlen c <= limit ->
  exists s', (closable s' \/ t = [] /\ s' = s) /\ forall rest, readable (t ++ rest) -> run (Parser s [] fs) (t ++ rest) = run (Parser s' c fs) rest.
Proof.
  intros [c' O|t' c' D] S L.
  - inversion O as [|x c'' Ox O']; subst c'.
    + exists s. split; [now right|]. reflexivity.
    + exists InField. split; [left; right; now left|]. intros rest R. cbn [app] in *. rewrite zlen_cons in L. pose proof (zlen_nonneg c'').
      rewrite run_plain_char; auto; [|rewrite zlen_nil; lia|destruct S; auto]. cbn [app]. pose proof (readable_tail _ _ R).
      rewrite run_plain by (auto; rewrite zlen_cons, zlen_nil; lia). reflexivity.
  - exists QuoteInQuotedField. split; [left; right; now right|]. intros rest R. cbn [app] in *. rewrite <- app_assoc in *. cbn [app] in *.
    pose proof (readable_tail _ _ R) as R'. rewrite run_open_quote by auto. rewrite (run_quoted _ _ D) by (auto; rewrite zlen_nil; lia).
    apply readable_app in R' as [_ R']. now rewrite run_quoted_quote.
Qed.

Lemma run_comma s c fs rest : closable s \/ c = [] /\ opened s -> readable (44 :: rest) ->
  run (Parser s c fs) (44 :: rest) = run (Parser StartField [] (fs ++ [c])) rest.
Proof. intros S R. rewrite run_in by auto. destruct S as [[-> |[-> | ->]]|[-> [-> | ->]]]; reflexivity. Qed.

Lemma run_cells t cs : cells_text t cs -> forall s fs, opened s -> (forall c, In c cs -> zlen c <= limit) ->
  exists s' c' fs', (closable s' \/ t = [] /\ s' = s) /\ fs' ++ [c'] = fs ++ cs /\
    forall rest, readable (t ++ rest) -> run (Parser s [] fs) (t ++ rest) = run (Parser s' c' fs') rest.
Proof.
  induction 1 as [t c C|t c t' cs C _ IH]; intros s fs S L.
  - destruct (run_cell t c s fs C S) as (s' & S' & H); [apply L; now left|]. exists s', c, fs. auto.
  - destruct (run_cell t c s fs C S) as (s1 & S1 & H); [apply L; now left|].
    destruct (IH StartField (fs ++ [c])) as (s' & c' & fs' & S' & E & H'); [now right|intros; apply L; now right|].
    exists s', c', fs'. split. { left. destruct S' as [S'|[_ ->]]; [auto|now left]. }
    split; [rewrite E, <- app_assoc; reflexivity|]. intros rest R. rewrite <- app_assoc in *. cbn [app] in *. rewrite H by auto. apply readable_app in R as [_ R].
    rewrite run_comma; [|destruct S1 as [S1|[-> ->]]; [now left|right; split; [|auto]]|auto].
    + apply H'. now apply readable_tail in R.
    + now inversion C.
Qed.

(** *** Line breaks *)
Lemma run_break b rest s c fs : line_break b rest -> closable s -> readable (b ++ rest) ->
  run (Parser s c fs) (b ++ rest) = (rows <- run fresh rest ;; Ok ((fs ++ [c]) :: rows)).
Proof.
  intros [r|r N|r] S R.
  - cbn [app] in *. rewrite run_in by auto. destruct S as [-> |[-> | ->]]; reflexivity.
  - cbn [app] in *. rewrite run_in by auto. assert (E : ends 13 r = true). { unfold ends. destruct r as [|d r]; [reflexivity|]. unfold lf. destruct (Z.eqb_spec d 10) as [-> |]; [now elim (N r)|reflexivity]. }
    rewrite E. destruct S as [-> |[-> | ->]]; reflexivity.
  - cbn [app] in *. rewrite run_in by auto. pose proof (readable_tail _ _ R) as R'. change (ends 13 (10 :: r)) with false. cbv iota.
    assert (Ep : process limit (Parser s c fs) 13 = Ok (save (Parser s c fs) EatCrnl)) by (destruct S as [-> |[-> | ->]]; reflexivity). rewrite Ep. cbn [bind]. rewrite run_in by auto. reflexivity.
Qed.

Lemma run_empty_line b rest : line_break b rest -> readable (b ++ rest) -> run fresh (b ++ rest) = (rows <- run fresh rest ;; Ok ([] :: rows)).
Proof.
  intros [r|r N|r] R.
  - cbn [app] in *. now rewrite run_in by auto.
  - cbn [app] in *. rewrite run_in by auto. assert (E : ends 13 r = true). { unfold ends. destruct r as [|d r]; [reflexivity|]. unfold lf. destruct (Z.eqb_spec d 10) as [-> |]; [now elim (N r)|reflexivity]. }
    rewrite E. reflexivity.
  - cbn [app] in *. rewrite run_in by auto. pose proof (readable_tail _ _ R) as R'. change (ends 13 (10 :: r)) with false. cbv iota. change (process limit fresh 13) with (Ok (Parser EatCrnl [] [])). cbn [bind]. now rewrite run_in by auto.
Qed.

Lemma run_row t cs : row_text t cs -> t <> [] -> (forall c, In c cs -> zlen c <= limit) ->
  exists s c fs, closable s /\ fs ++ [c] = cs /\ forall rest, readable (t ++ rest) -> run fresh (t ++ rest) = run (Parser s c fs) rest.
Proof.
  intros [|t' cs' _ C] N L; [easy|]. destruct (run_cells _ _ C StartRecord []) as (s & c & fs & S & E & H); [now left|auto|].
  exists s, c, fs. split; [destruct S as [S|[-> _]]; [auto|easy]|]. auto.
Qed.

Theorem read_text t rows : file_text t rows -> within limit rows -> readable t -> run fresh t = Ok rows.
Proof.
  induction 1 as [|t cs N T|t cs b rest rows T B F IH]; intros W R.
  - reflexivity.
  - destruct (run_row t cs T N) as (s & c & fs & S & <- & H). { intros c I. apply (W cs); auto. now left. }
    rewrite <- (app_nil_r t) in R |- *. rewrite H by auto. destruct S as [-> |[-> | ->]]; reflexivity.
  - assert (Rr : run fresh rest = Ok rows). { apply IH; [intros cs' c I; apply W; now right|]. now apply readable_app in R as [_ R]; apply readable_app in R as [_ R]. }
    destruct t as [|x t].
    + assert (cs = []) as -> by now inversion T. cbn [app] in *. now rewrite run_empty_line, Rr.
    + destruct (run_row (x :: t) cs T) as (s & c & fs & S & <- & H); [discriminate| |]. { intros c I. apply (W cs); auto. now left. }
      rewrite H by auto. apply readable_app in R as [_ R]. now rewrite run_break, Rr.
Qed.

(** ** Truncated texts *)

Lemma begins_nil {A} (l : list A) : begins [] l.
Proof. now exists l. Qed.

(** The beginning of a part of a text: either it ends in the first part or in the second part. *)
Lemma prefix_split {A} (p q a b : list A) : p ++ q = a ++ b -> (exists d, p = a ++ d /\ d ++ q = b) \/ (exists d, a = p ++ d /\ d <> [] /\ q = d ++ b).
Proof.
  revert a. induction p as [|x p IH]; intros a E.
  - destruct a as [|y a]; [left; exists []; auto|right; exists (y :: a); cbn in *; split; [reflexivity|split; [discriminate|auto]]].
  - destruct a as [|y a]; [left; exists (x :: p); auto|]. cbn in E. injection E as -> E. destruct (IH a E) as [(d & -> & <-)|(d & -> & N & ->)]; [left|right]; exists d; auto.
Qed.

Lemma cut_quoted t c : doubled t c -> forall p q f fs, t = p ++ q -> readable p -> zlen f + zlen c <= limit ->
  exists b, begins b c /\ run (Parser InQuotedField f fs) p = Ok [fs ++ [f ++ b]].
Proof.
  induction 1 as [|t c D IH|x t c N D IH]; intros p q f fs E R L.
  - destruct p; [|discriminate]. exists []. split; [apply begins_nil|]. now rewrite app_nil_r.
  - rewrite zlen_cons in L. pose proof (zlen_nonneg c). destruct p as [|x p]; [exists []; split; [apply begins_nil|now rewrite app_nil_r]|]. cbn in E. injection E as <- E.
    pose proof (readable_tail _ _ R) as R'. rewrite run_quoted_quote by auto. destruct p as [|y p].
    + exists []. split; [apply begins_nil|now rewrite app_nil_r].
    + cbn in E. injection E as <- E. pose proof (readable_tail _ _ R') as R2. rewrite run_second_quote by (auto; lia).
      destruct (IH p q (f ++ [34]) fs E R2) as (b & [q' ->] & Hb); [rewrite zlen_app, zlen_cons, zlen_nil; lia|]. exists (34 :: b). split; [now exists q'|]. now rewrite Hb, <- app_assoc.
  - rewrite zlen_cons in L. pose proof (zlen_nonneg c). destruct p as [|y p]; [exists []; split; [apply begins_nil|now rewrite app_nil_r]|]. cbn in E. injection E as <- E.
    pose proof (readable_tail _ _ R) as R'. rewrite run_quoted_char by (auto; lia).
    destruct (IH p q (f ++ [x]) fs E R') as (b & [q' ->] & Hb); [rewrite zlen_app, zlen_cons, zlen_nil; lia|]. exists (x :: b). split; [now exists q'|]. now rewrite Hb, <- app_assoc.
Qed.

(** A cell is truncated. *)
Lemma cut_cell t c p q s fs : cell_text t c -> t = p ++ q -> opened s -> p <> [] \/ s = StartField -> readable p -> zlen c <= limit ->
  exists b, begins b c /\ run (Parser s [] fs) p = Ok [fs ++ [b]].
Proof.
  intros [c' O|t' c' D] E S P R L.
  - subst c'. destruct p as [|x p]. { exists []. split; [apply begins_nil|]. destruct P as [P| ->]; [easy|reflexivity]. }
    exists (x :: p). split; [now exists q|]. cbn [app] in O, L. inversion O as [|? ? Ox O']; subst. rewrite zlen_cons, zlen_app in L. pose proof (zlen_nonneg p). pose proof (zlen_nonneg q).
    rewrite run_plain_char; auto; [|rewrite zlen_nil; lia|destruct S; auto]. pose proof (readable_tail _ _ R) as R'. apply Forall_app in O' as [O' _].
    rewrite <- (app_nil_r p) in R' |- *. rewrite run_plain by (auto; rewrite ?zlen_app, ?zlen_cons, ?zlen_nil; lia). rewrite app_nil_r. reflexivity.
  - destruct p as [|x p]. { exists []. split; [apply begins_nil|]. destruct P as [P| ->]; [easy|reflexivity]. }
    cbn [app] in E. injection E as <- E. rewrite run_open_quote by auto. pose proof (readable_tail _ _ R) as R'. symmetry in E.
    destruct (prefix_split _ _ _ _ E) as [(d & -> & Ed)|(d & Ed & _ & _)].
    + destruct d as [|y d].
      * rewrite app_nil_r in *. apply (cut_quoted _ _ D t' []); [now rewrite app_nil_r|auto|now rewrite zlen_nil].
      * cbn [app] in Ed. injection Ed as -> Ed. apply app_eq_nil in Ed as [-> _]. rewrite (run_quoted _ _ D) by (auto; rewrite zlen_nil; lia). apply readable_app in R' as [_ R'].
        rewrite run_quoted_quote by auto. exists c'. split; [exists []; now rewrite app_nil_r|reflexivity].
    + now apply (cut_quoted _ _ D p d).
Qed.

Lemma cut_cells t cs : cells_text t cs -> forall p q s fs, t = p ++ q -> opened s -> p <> [] \/ s = StartField -> readable p -> (forall c, In c cs -> zlen c <= limit) ->
  exists r, partial_row r cs /\ run (Parser s [] fs) p = Ok [fs ++ r].
Proof.
  induction 1 as [t c C|t c t' cs C _ IH]; intros p q s fs E S P R L.
  - destruct (cut_cell t c p q s fs C E S P R) as (b & B & H); [apply L; now left|]. exists [b]. split; [|exact H]. exists [], b, c, []. auto.
  - assert (Lc : zlen c <= limit) by (apply L; now left). symmetry in E. destruct (prefix_split _ _ _ _ E) as [(d & -> & Ed)|(d & -> & _ & _)].
    + destruct d as [|x d].
      * rewrite app_nil_r in *. destruct (cut_cell t c t [] s fs C) as (b & B & H); auto; [now rewrite app_nil_r|]. exists [b]. split; [|exact H]. exists [], b, c, cs. auto.
      * cbn [app] in Ed. injection Ed as -> Ed. destruct (run_cell t c s fs C S Lc) as (s1 & S1 & H). rewrite H by auto. apply readable_app in R as [_ R].
        rewrite run_comma; [|destruct S1 as [S1|[-> ->]]; [now left|right; split; [now inversion C|auto]]|auto].
        destruct (IH d q StartField (fs ++ [c]) (eq_sym Ed)) as (r & (before & b & c0 & after & -> & -> & B) & Hr); [now right|now right|now apply readable_tail in R|intros; apply L; now right|].
        exists ((c :: before) ++ [b]). split; [exists (c :: before), b, c0, after; auto|]. rewrite Hr, <- app_assoc. reflexivity.
    + destruct (cut_cell (p ++ d) c p d s fs C eq_refl S P R Lc) as (b & B & H). exists [b]. split; [|exact H]. exists [], b, c, cs. auto.
Qed.

Lemma cut_row t cs p q : row_text t cs -> t = p ++ q -> p <> [] -> readable p -> (forall c, In c cs -> zlen c <= limit) ->
  exists r, partial_row r cs /\ run fresh p = Ok [r].
Proof.
  intros [|t' cs' _ C] E N R L; [destruct p; [easy|discriminate]|]. destruct (cut_cells _ _ C p q StartRecord [] E) as (r & P & H); auto; [now left|]. exists r. auto.
Qed.

Theorem cut_text t rows : file_text t rows -> within limit rows -> forall p q, t = p ++ q -> readable p -> exists left, remainder left rows /\ run fresh p = Ok left.
Proof.
  induction 1 as [|t cs N T|t cs b rest rows T B F IH]; intros W p q E R.
  - destruct p; [|discriminate]. exists []. split; [left; apply begins_nil|reflexivity].
  - destruct p as [|x p]; [exists []; split; [left; apply begins_nil|reflexivity]|].
    destruct (cut_row t cs (x :: p) q T E) as (r & P & H); [discriminate|auto|intros c I; apply (W cs); auto; now left|].
    exists [r]. split; [right; exists [], r, cs, []; auto|exact H].
  - destruct p as [|x p]; [exists []; split; [left; apply begins_nil|reflexivity]|]. remember (x :: p) as p' eqn:Ep. assert (Np : p' <> []) by (subst; discriminate). clear x p Ep.
    assert (Wc : forall c, In c cs -> zlen c <= limit) by (intros c I; apply (W cs); auto; now left).
    symmetry in E. destruct (prefix_split _ _ _ _ E) as [(d & -> & Ed)|(d & -> & Nd & _)].
    + (* the row is complete *) destruct (prefix_split _ _ _ _ Ed) as [(e & -> & Ee)|(e & Eb & Ne & ->)].
      * (* with its line break *) destruct (IH ltac:(intros cs' c I; apply W; now right) e q) as (l & Hl & El); [auto| |].
        { apply readable_app in R as [_ R]. now apply readable_app in R as [_ R]. }
        assert (B' : line_break b e). { inversion B; subst; constructor. destruct e as [|y e]; [discriminate|]. intros r Er. cbn [app] in H. injection Er as -> ->. now apply (H (r ++ q)). }
        exists (cs :: l). split.
        { destruct Hl as [[z ->]|(before & r & cs0 & after & -> & -> & P)]; [left; now exists z|right; exists (cs :: before), r, cs0, after; auto]. }
        destruct t as [|x t].
        { assert (cs = []) as -> by now inversion T. cbn [app] in *. now rewrite run_empty_line, El. }
        destruct (run_row (x :: t) cs T) as (s & c & fs & S & <- & H); [discriminate|auto|]. rewrite H by auto. apply readable_app in R as [_ R]. now rewrite run_break, El.
      * (* without its line break or with a part of it *) exists [cs]. split; [left; exists rows; reflexivity|]. destruct d as [|y d].
        { rewrite app_nil_r in *. destruct (run_row t cs T Np Wc) as (s & c & fs & S & <- & H). rewrite <- (app_nil_r t) in R |- *. rewrite H by auto. destruct S as [-> |[-> | ->]]; reflexivity. }
        assert (y = 13 /\ d = []) as [-> ->].
        { assert (K : b = [10] \/ b = [13] \/ b = [13; 10]) by (inversion B; auto). destruct K as [-> |[-> | ->]]; cbn [app] in Eb; injection Eb as Ey Eb.
          - symmetry in Eb. now apply app_eq_nil in Eb as [_ ->].
          - symmetry in Eb. now apply app_eq_nil in Eb as [_ ->].
          - destruct d as [|z d]; [auto|]. cbn [app] in Eb. injection Eb as _ Eb. symmetry in Eb. now apply app_eq_nil in Eb as [_ ->]. }
        assert (B' : line_break [13] []) by (constructor; discriminate). destruct t as [|x t].
        { assert (cs = []) as -> by now inversion T. cbn [app] in *. exact (run_empty_line [13] [] B' R). }
        destruct (run_row (x :: t) cs T) as (s & c & fs & S & <- & H); [discriminate|auto|]. rewrite H by auto. apply readable_app in R as [_ R]. exact (run_break [13] [] s c fs B' S R).
    + destruct (cut_row _ cs p' d T eq_refl Np R Wc) as (r & P & H). exists [r]. split; [right; exists [], r, cs, rows; auto|exact H].
Qed.

(** ** Long cells and NUL characters *)

Lemma run_error p t e : run p t = Err e -> e = RuntimeError.
Proof.
  revert p. induction t as [|x t IH]; intros p; cbn [CsvText.run]. { destruct (p_state p); discriminate. }
  destruct (step p x) as [p'|e'] eqn:S.
  - cbn [bind]. destruct (ends x t); [|apply IH]. destruct (p_state (end_of_line p')); try apply IH. destruct (run fresh t) eqn:E; [discriminate|]. cbn [bind]. intros H. injection H as <-. now apply (IH fresh).
  - cbn [bind]. intros H. injection H as <-. unfold CsvText.step, process, start_field, add in S.
    destruct (negb nul && (x =? 0)); [congruence|].
    destruct (p_state p); repeat match type of S with (if ?b then _ else _) = _ => destruct b end; congruence.
Qed.

Lemma run_nul p t : nul = false -> In 0 t -> run p t = Err RuntimeError.
Proof.
  intros N I. revert p. induction t as [|x t IH]; [easy|]. intros p. cbn [CsvText.run]. destruct (Z.eqb_spec x 0) as [-> |X].
  - unfold CsvText.step. rewrite N. reflexivity.
  - destruct I as [I|I]; [easy|]. specialize (IH I). destruct (step p x) as [p'|e] eqn:S.
    + cbn [bind]. destruct (ends x t); [|apply IH]. destruct (p_state (end_of_line p')); try apply IH. now rewrite IH.
    + cbn [bind]. f_equal. apply (run_error p (x :: t)). cbn [CsvText.run]. now rewrite S.
Qed.

Lemma long_quoted t c : doubled t c -> forall f fs rest, readable (t ++ rest) -> zlen f <= limit -> limit < zlen f + zlen c ->
  run (Parser InQuotedField f fs) (t ++ rest) = Err RuntimeError.
Proof.
  induction 1 as [|t c D IH|x t c N D IH]; intros f fs rest R F L.
  - rewrite zlen_nil in L. lia.
  - cbn [app] in *. rewrite zlen_cons in L. pose proof (readable_tail _ _ R) as R'. pose proof (readable_tail _ _ R') as R2. rewrite run_quoted_quote by auto.
    destruct (Z.lt_ge_cases (zlen f) limit).
    + rewrite run_second_quote by auto. apply IH; auto; rewrite zlen_app, zlen_cons, zlen_nil; lia.
    + rewrite run_in by auto. cbv [process quote]. cbn [p_state]. change (34 =? 34) with true. cbv iota. now rewrite add_long.
  - cbn [app] in *. rewrite zlen_cons in L. pose proof (readable_tail _ _ R) as R'. destruct (Z.lt_ge_cases (zlen f) limit).
    + rewrite run_quoted_char by auto. apply IH; auto; rewrite zlen_app, zlen_cons, zlen_nil; lia.
    + rewrite run_in by auto. unfold process, quote. cbn [p_state]. rewrite (proj2 (Z.eqb_neq _ _) N). now rewrite add_long.
Qed.

Lemma long_plain c : Forall ordinary c -> forall s f fs rest, readable (c ++ rest) -> s = StartRecord \/ s = StartField \/ s = InField -> zlen f <= limit -> limit < zlen f + zlen c ->
  run (Parser s f fs) (c ++ rest) = Err RuntimeError.
Proof.
  induction 1 as [|x c O _ IH]; intros s f fs rest R S F L.
  - rewrite zlen_nil in L. lia.
  - cbn [app] in *. rewrite zlen_cons in L. pose proof (readable_tail _ _ R) as R'. destruct (Z.lt_ge_cases (zlen f) limit).
    + rewrite run_plain_char by auto. apply IH; auto; rewrite zlen_app, zlen_cons, zlen_nil; lia.
    + rewrite run_in by auto. destruct O as (N1 & N2 & N3 & N4). unfold process, start_field, quote, comma, lf, cr.
      rewrite (proj2 (Z.eqb_neq _ _) N1), (proj2 (Z.eqb_neq _ _) N2), (proj2 (Z.eqb_neq _ _) N3), (proj2 (Z.eqb_neq _ _) N4).
      destruct S as [-> |[-> | ->]]; cbn [p_state orb]; now rewrite add_long.
Qed.

Lemma long_cell t c s fs rest : 0 <= limit -> cell_text t c -> opened s -> limit < zlen c -> readable (t ++ rest) -> run (Parser s [] fs) (t ++ rest) = Err RuntimeError.
Proof.
  intros P [c' O|t' c' D] S L R.
  - apply long_plain; auto. destruct S; auto.
  - cbn [app] in *. rewrite <- app_assoc in *. rewrite run_open_quote by auto. apply readable_tail in R. now apply (long_quoted _ _ D).
Qed.

Lemma long_cells t cs : 0 <= limit -> cells_text t cs -> forall s fs rest, opened s -> (exists c, In c cs /\ limit < zlen c) -> readable (t ++ rest) ->
  run (Parser s [] fs) (t ++ rest) = Err RuntimeError.
Proof.
  intros P. induction 1 as [t c C|t c t' cs C _ IH]; intros s fs rest S (c0 & I & L) R.
  - destruct I as [<-|[]]. now apply (long_cell t c).
  - rewrite <- app_assoc in *. cbn [app] in *. destruct (Z.le_gt_cases (zlen c) limit) as [Lc|Lc]; [|now apply (long_cell t c)].
    destruct (run_cell t c s fs C S Lc) as (s1 & S1 & H). rewrite H by auto. apply readable_app in R as [_ R].
    rewrite run_comma; [|destruct S1 as [S1|[-> ->]]; [now left|right; split; [now inversion C|auto]]|auto].
    apply IH; [now right| |now apply readable_tail in R]. destruct I as [<-|I]; [lia|]. eauto.
Qed.

Lemma bounded_or_long (cs : list (list Z)) : (forall c, In c cs -> zlen c <= limit) \/ exists c, In c cs /\ limit < zlen c.
Proof.
  induction cs as [|c cs [IH|(d & I & L)]]; [now left| |right; exists d; split; [now right|auto]].
  destruct (Z.le_gt_cases (zlen c) limit); [left; intros d [<-|I]; auto|right; exists c; split; [now left|auto]].
Qed.

Theorem long_text t rows : 0 <= limit -> file_text t rows -> ~ within limit rows -> readable t -> run fresh t = Err RuntimeError.
Proof.
  intros P. induction 1 as [|t cs N T|t cs b rest rows T B F IH]; intros W R.
  - elim W. intros cs c [].
  - destruct (bounded_or_long cs) as [L|L]; [elim W; intros cs' c [<-|[]]; auto|]. inversion T as [|? ? _ C]; subst; [easy|].
    rewrite <- (app_nil_r t) in R |- *. apply (long_cells _ _ P C); auto. now left.
  - destruct (bounded_or_long cs) as [L|L].
    + assert (Er : run fresh rest = Err RuntimeError). { apply IH; [intros W'; apply W; intros cs' c [<-|I]; eauto|]. now apply readable_app in R as [_ R]; apply readable_app in R as [_ R]. }
      destruct t as [|x t].
      * assert (cs = []) as -> by now inversion T. cbn [app] in *. now rewrite run_empty_line, Er.
      * destruct (run_row (x :: t) cs T) as (s & c & fs & S & <- & H); [discriminate|auto|]. rewrite H by auto. apply readable_app in R as [_ R]. now rewrite run_break, Er.
    + inversion T as [|? ? _ C]; subst. { destruct L as (c & [] & _). } apply (long_cells _ _ P C); auto. now left.
Qed.

(** ** Arbitrary texts *)

Theorem any_text t : forall p, readable t -> zlen (p_field p) + zlen t <= limit -> (p_state p = EatCrnl -> exists r, t = 10 :: r) -> exists rows, run p t = Ok rows.
Proof.
  induction t as [|x t IH]; intros p R L E.
  - cbn [CsvText.run]. destruct (p_state p); eauto.
  - rewrite zlen_cons in L. pose proof (zlen_nonneg t) as T. pose proof (zlen_nonneg (p_field p)) as F. pose proof (readable_tail _ _ R) as R'.
    assert (G : exists p', process limit p x = Ok p' /\ zlen (p_field p') <= zlen (p_field p) + 1 /\ (p_state p' = EatCrnl -> x = 10 \/ x = 13)).
    { unfold process, start_field, save. destruct (p_state p) eqn:S; unfold quote, comma, cr, lf;
        repeat match goal with |- context [if ?b then _ else _] => destruct b eqn:? end; try rewrite add_ok by lia;
        try (eexists; split; [reflexivity|]; cbn [p_field p_state]; rewrite ?zlen_app, ?zlen_cons, ?zlen_nil; split; [lia|intros H; try discriminate H; lia]).
      destruct (E eq_refl) as [r Er]. injection Er as -> _. discriminate. }
    destruct G as (p' & Ep & Lp & Sp). rewrite run_in, Ep by auto. cbn [bind].
    assert (Le : zlen (p_field (end_of_line p')) <= zlen (p_field p')). { unfold end_of_line, save. destruct (p_state p'); cbn [p_field]; rewrite ?zlen_nil; pose proof (zlen_nonneg (p_field p')); lia. }
    destruct (ends x t) eqn:Ex.
    + destruct (end_of_line_state p') as [S|[S _]]; rewrite S.
      * destruct (IH fresh R') as [rows H]; [cbn [fresh p_field]; rewrite zlen_nil; lia|discriminate|]. rewrite H. cbn [bind]. eauto.
      * apply IH; auto; [lia|congruence].
    + apply IH; auto; [lia|]. intros S. destruct (Sp S) as [-> | ->]; [discriminate|]. unfold ends in Ex. change (13 =? lf) with false in Ex. change (13 =? cr) with true in Ex. cbn [orb andb] in Ex.
      destruct t as [|d t]; [discriminate|]. exists t. f_equal. unfold lf in Ex. lia.
Qed.
End Reader.

(** The rows of a text are unambiguous. *)
Lemma bound (rows : list (list (list Z))) : exists limit, 0 <= limit /\ within limit rows.
Proof.
  assert (B : forall l : list (list Z), exists n, 0 <= n /\ forall c, In c l -> zlen c <= n).
  { induction l as [|c l (n & P & IH)]; [exists 0; easy|]. exists (Z.max n (zlen c)). split; [lia|]. intros d [<-|I]; [lia|]. apply IH in I. lia. }
  destruct (B (concat rows)) as (n & P & H). exists n. split; auto. intros cs c I J. apply H. apply in_concat. eauto.
Qed.

Lemma within_mono a b rows : a <= b -> within a rows -> within b rows.
Proof. intros L W cs c I J. specialize (W cs c I J). lia. Qed.

Theorem unambiguous t rows rows' : file_text t rows -> file_text t rows' -> rows = rows'.
Proof.
  intros F F'. destruct (bound rows) as (n & P & W). destruct (bound rows') as (n' & P' & W').
  assert (E : run true (Z.max n n') fresh t = Ok rows) by (apply read_text; auto; [eapply within_mono; [|exact W]; lia|now left]).
  assert (E' : run true (Z.max n n') fresh t = Ok rows') by (apply read_text; auto; [eapply within_mono; [|exact W']; lia|now left]). congruence.
Qed.
