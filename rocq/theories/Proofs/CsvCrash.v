(** Truncated CSV files with signals. *)

From Coq Require Import String ZArith QArith List Bool Lia ZifyBool Lqa.
From Verif.Model Require Import Py Numpy Functions Signal Tables Csv Json JsonFiles CsvFiles.
From Verif.Spec Require Import TablesSpec CsvSpec CsvFilesSpec.
From Verif.Proofs Require Import PyFacts NumpyFacts TableFacts TableResults SignalAlgebra JsonText JsonFilesFacts CsvText CsvReading CsvFilesFacts.
Import ListNotations.
Open Scope list_scope.
Open Scope Z_scope.

(** ** Rows of strings *)

Definition shortened (short row : list string) : Prop := exists before b c after, short = before ++ [b] /\ row = before ++ c :: after /\ starts b c.

Definition cut (left file : csv) : Prop :=
  zlen left <= zlen file /\ forall k short, zth left k = Some short -> exists row, zth file k = Some row /\ (short = row \/ k = zlen left - 1 /\ shortened short row).

Lemma codes_begins b s : begins b (codes s) -> exists b', codes b' = b /\ starts b' s.
Proof.
  revert b. induction s as [|c s IH]; intros b [q E].
  - destruct b; [|discriminate]. exists EmptyString. split; [reflexivity|]. now exists EmptyString.
  - destruct b as [|x b]; [exists EmptyString; split; [reflexivity|]; now exists (String c s)|]. cbn [codes app] in E. injection E as <- E.
    destruct (IH b) as (b' & <- & q' & ->); [now exists q|]. exists (String c b'). split; [reflexivity|]. now exists q'.
Qed.

Lemma remainder_strings left file : remainder left (map (map codes) file) -> exists rows, left = map (map codes) rows /\ cut rows file.
Proof.
  intros [[q E]|(before & p & cs & after & -> & E & P)].
  - apply map_eq_app in E as (rows & rest & -> & <- & _). exists rows. split; [reflexivity|]. split; [rewrite zlen_app; pose proof (zlen_nonneg rest); lia|].
    intros k short K. exists short. split; [|now left]. rewrite zth_app. apply zth_range in K as R. now replace (k <? zlen rows) with true by lia.
  - apply map_eq_app in E as (rows & rest & -> & <- & E). apply map_eq_cons in E as (row & tail & -> & <- & <-).
    destruct P as (cb & b & c & ca & -> & E & B). apply map_eq_app in E as (cells & rest & -> & <- & E). apply map_eq_cons in E as (s & others & -> & <- & <-).
    apply codes_begins in B as (b' & <- & B). exists (rows ++ [cells ++ [b']]). split; [rewrite map_app; cbn [map]; now rewrite map_app|].
    split; [rewrite !zlen_app, !zlen_cons, zlen_nil; pose proof (zlen_nonneg tail); lia|]. intros k short K. revert K. rewrite !zth_app, zlen_app, zlen_cons, zlen_nil.
    destruct (Z.ltb_spec k (zlen rows)); intros K; [eauto|]. assert (k = zlen rows) as ->. { apply zth_range in K. change (zlen [cells ++ [b']]) with 1 in K. lia. }
    rewrite Z.sub_diag in K |- *. injection K as <-. eexists. split; [reflexivity|]. right. split; [lia|]. now exists cells, b', s, others.
Qed.

Lemma readable_prefix nul (p q : list Z) : readable nul (p ++ q) -> readable nul p.
Proof. intros [H|H]; [now left|right]. intros I. apply H, in_app_iff. now left. Qed.

Lemma truncated_text nul limit file p q : cells_fit nul limit file -> csv_text file = p ++ q -> exists rows, cut rows file /\ text_csv nul limit p = Ok rows.
Proof.
  intros F E. destruct (cut_text nul limit (csv_text file) (map (map codes) file)) with (p := p) (q := q) as (left & R & H); auto.
  - apply strict_file, write_rows_text.
  - now apply (fitting_within nul).
  - apply (readable_prefix _ p q). rewrite <- E. now apply (fitting_readable nul limit).
  - apply remainder_strings in R as (rows & -> & R). exists rows. split; [exact R|]. unfold text_csv. rewrite read_run, H. apply uncoded.
Qed.

(** ** Reading *)

Lemma parse_row_is {A} parse (parse_sample : string -> option A) row r : parse_row parse parse_sample row = Ok r -> is_row parse parse_sample row r.
Proof.
  intros H. destruct row as [|t cells]; [discriminate|]. unfold parse_row in H. change (getitem (t :: cells) 0) with (Ok t) in H. cbn [bind] in H.
  rewrite subseq_from_1 in H. destruct (parse t) as [x|] eqn:P; [|discriminate]. cbn [parsed bind] in H. apply bind_ok in H as (samples & S & H). injection H as <-.
  split; [exact P|]. apply sequence_ok in S as [L S]. rewrite zlen_map in L. apply forall2_zth; [cbn; lia|]. intros i c y C Y. cbn [snd] in Y.
  destruct (S i (parsed (parse_sample c))) as (v & V & V'); [now rewrite zth_map, C|]. rewrite Y in V'. injection V' as <-. destruct (parse_sample c); [now injection V as ->|discriminate].
Qed.

Lemma parse_rows_are {A} parse (parse_sample : string -> option A) file table : sequence (map (parse_row parse parse_sample) file) = Ok table ->
  Forall2 (is_row parse parse_sample) file table.
Proof.
  intros H. apply sequence_ok in H as [L H]. rewrite zlen_map in L. apply forall2_zth; [lia|]. intros i row r R T.
  destruct (H i (parse_row parse parse_sample row)) as (v & V & V'); [now rewrite zth_map, R|]. rewrite T in V'. injection V' as <-. now apply parse_row_is.
Qed.

Lemma transposed_uniform {A} (table : list (Q * list A)) r table' m : table = r :: table' -> transposed (map snd table) = Ok m -> uniform (zlen (snd r)) table.
Proof.
  intros E H. rewrite (transposed_eq _ (snd r) (map snd table')) in H by now rewrite E. destruct (forallb _ _) eqn:F; [|discriminate].
  rewrite forallb_forall in F. apply Forall_forall. intros s I. apply Z.eqb_eq, F. now apply in_map.
Qed.

Lemma signal_of_rows junk c table m given t : 1 <= c -> 1 <= zlen table -> uniform c table -> samples_of c table m -> arrangement table table ->
  signal_from_rows junk (map fst table) m given = Ok t -> channels t = m /\ labelled given c (labels t).
Proof.
  intros C N U S H E. unfold signal_from_rows in E. destruct (sorted_rows_ok Qeq_bool less_number c table table m m) as (b & B); auto. rewrite B in E.
  pose proof S as (W & Nm & Cm & _). replace (negb (nrows m =? 0) && negb (cols m =? 0)) with true in E by lia.
  apply bind_ok in E as (lo & _ & E). apply bind_ok in E as (hi & _ & E). apply bind_ok in E as (rate & _ & E). cbn [bind fst] in E.
  rewrite copy_array_ok in E by exact W. cbn [bind] in E. injection E as <-. split; [reflexivity|]. cbn [labels mk_signal]. rewrite Nm. apply adapt_labels_ok. lia.
Qed.

Lemma labels_taken given c l : 0 <= c <= zlen given -> labelled given c l -> l = ztake c given.
Proof.
  intros C [L H]. apply zth_ext. intros i. rewrite zth_take. destruct (Z.ltb_spec i c).
  - destruct (Z.leb_spec 0 i).
    + rewrite H by lia. destruct (zth_in given i) as [x X]; [lia|]. now rewrite X.
    + now rewrite !zth_neg.
  - apply zth_out. lia.
Qed.

Section Signal.
Variables (nul : bool) (limit : Z) (junk : Z -> Z -> Q) (show : Q -> string) (parse : string -> option Q).
Variable s : signal Q.
Hypothesis R : restores Qeq show parse.
Hypothesis P : forall b, starts b "time" -> parse b = None.
Hypothesis W : wf_signal s.
Hypothesis F : (0 < sampling_rate s)%Q.
Notation number := (fun k => inject_Z (offset s + k) / sampling_rate s)%Q.

Lemma time_none : parse "time"%string = None.
Proof. apply P. now exists EmptyString. Qed.

(** The rows of a truncated file *)
Lemma cut_rows body left table : written_table show show "time" (labels s) number (channels s) (("time"%string :: labels s) :: body) -> cut left body ->
  Forall2 (is_row parse parse) left table -> forall k r, zth table k = Some r -> 0 <= k < Signal.length s /\ zlen (snd r) <= count s /\
   (1 <= zlen (snd r) -> (fst r == number k)%Q) /\ (k < zlen table - 1 -> zlen (snd r) = count s) /\
   forall i x, i < zlen (snd r) - 1 \/ k < zlen table - 1 -> 0 <= i < zlen (snd r) -> el (channels s) i k = Some x -> exists y, zth (snd r) i = Some y /\ (y == x)%Q.
Proof.
  intros (body' & E & L & H) [LC C] T k r K. injection E as <-. pose proof (forall2_zlen _ _ _ T) as LT.
  destruct (zth_in left k) as [short S]; [rewrite LT; now apply zth_range in K|]. destruct (C k short S) as (row & Hr & D). pose proof (zth_range _ _ _ Hr) as KR. rewrite L in KR.
  destruct (H k KR) as (t & cells & Hc & Et & Lc & HS). rewrite Hr in Hc. injection Hc as ->. pose proof (forall2_at _ _ _ T _ _ _ S K) as I.
  destruct short as [|t' cells']; [destruct I|]. destruct I as [It Ic]. pose proof (forall2_zlen _ _ _ Ic) as LI.
  change (cols (channels s)) with (Signal.length s) in *. change (nrows (channels s)) with (count s) in *.
  assert (Q1 : zlen cells' <= count s /\ (1 <= zlen cells' -> t' = show t) /\ (k < zlen table - 1 -> zlen cells' = count s) /\
     forall i, i < zlen cells' - 1 \/ k < zlen table - 1 -> 0 <= i < zlen cells' -> zth cells' i = zth cells i).
  { destruct D as [D|[-> (cb & b & c & ca & E & E' & B)]].
    - injection D as -> ->. repeat split; auto; lia.
    - destruct cb as [|x cb].
      + injection E as -> ->. rewrite zlen_nil. pose proof (zlen_nonneg cells). repeat split; intros; lia.
      + injection E as -> ->. injection E' as <- ->. rewrite zlen_app, zlen_cons in Lc. rewrite zlen_app, zlen_cons, zlen_nil. pose proof (zlen_nonneg ca).
        repeat split; try lia; auto. intros i [I|I] I'; [|lia]. rewrite !zth_app. now replace (i <? zlen cb) with true by lia. }
  destruct Q1 as (Q1 & Q2 & Q3 & Q4). rewrite <- LI. repeat split; try lia; auto.
  - intros N. rewrite (Q2 N) in It. destruct (R t) as (y & Py & Ey). rewrite Py in It. injection It as <-. now rewrite Ey.
  - intros i x I I' X. destruct (zth_in (snd r) i) as [y Y]; [lia|]. exists y. split; [exact Y|]. destruct (zth_in cells' i) as [c Hc]; [lia|].
    pose proof (forall2_at _ _ _ Ic _ _ _ Hc Y) as Py. rewrite Q4, (HS _ _ X) in Hc by auto. injection Hc as <-. destruct (R x) as (y' & Py' & Ey'). rewrite Py' in Py. injection Py as <-. exact Ey'.
Qed.

Lemma read_cut file left t : written_table show show "time" (labels s) number (channels s) file -> cut left file ->
  read_signal_csv junk parse left = Ok t -> t = default_signal \/ damaged s t.
Proof.
  intros T [LC C] E. pose proof T as (body & -> & L & _). destruct left as [|header left]; [discriminate|].
  assert (HD : exists name given, header = name :: given /\ parse name = None /\ (left = [] \/ given = labels s)).
  { destruct (C 0 header eq_refl) as (row & Hr & D). injection Hr as <-. destruct D as [-> |[D (cb & b & c & ca & -> & E' & B)]].
    - exists "time"%string, (labels s). split; [reflexivity|]. split; [apply time_none|now right].
    - assert (left = []) as ->. { rewrite zlen_cons in D. destruct left; [reflexivity|]. rewrite zlen_cons in D. pose proof (zlen_nonneg left). lia. }
      destruct cb as [|x cb]; injection E' as <- E'.
      + exists b, []. split; [reflexivity|]. split; [now apply P|now left].
      + exists "time"%string, (cb ++ [b]). split; [reflexivity|]. split; [apply time_none|now left]. }
  destruct HD as (name & given & -> & Pn & G). unfold read_signal_csv, read_csv in E. change (getitem (name :: given) 0) with (Ok name) in E. cbn [bind] in E.
  rewrite Pn, subseq_from_1 in E. cbn [app] in E. apply bind_ok in E as (r & E & E'). apply bind_ok in E as (table & Et & E). apply bind_ok in E as (m & Em & E). injection E as <-.
  cbn [app] in *. apply parse_rows_are in Et. destruct table as [|r0 table'] eqn:ET.
  { cbn in Em. injection Em as <-. left. cbn in E'. now injection E' as <-. }
  rewrite <- ET in *. assert (N1 : 1 <= zlen table) by (rewrite ET, zlen_cons; pose proof (zlen_nonneg table'); lia).
  assert (given = labels s) as ->. { destruct G as [-> |G]; [|exact G]. inversion Et; subst. discriminate. }
  pose proof (transposed_uniform _ _ _ _ ET Em) as U. set (c := zlen (snd r0)) in *. pose proof (zlen_nonneg (snd r0)) as C0. fold c in C0.
  destruct (transposed_ok c table) as (m' & Em' & S); auto. rewrite Em in Em'. injection Em' as <-.
  assert (CB : cut left body).
  { rewrite !zlen_cons in LC. split; [lia|]. intros k short K. pose proof (zth_range _ _ _ K). destruct (C (k + 1) short) as (row & Hr & D).
    - rewrite zth_cons. replace (k + 1 =? 0) with false by lia. now replace (k + 1 - 1) with k by lia.
    - rewrite zth_cons in Hr. replace (k + 1 =? 0) with false in Hr by lia. replace (k + 1 - 1) with k in Hr by lia. exists row. split; [exact Hr|].
      destruct D as [D|[D D']]; [now left|right]. rewrite zlen_cons in D. split; [lia|exact D']. }
  pose proof (cut_rows body left table T CB Et) as H. unfold uniform in U. rewrite Forall_zth in U.
  destruct (Z.eq_dec c 0) as [Z0|Z0].
  { left. destruct S as (_ & Nm & _). unfold signal_from_rows in E'. replace (nrows m =? 0) with true in E' by lia. cbn in E'. now injection E' as <-. }
  right. assert (C1 : 1 <= c) by lia.
  assert (A : arrangement table table). { apply (table_sorted s); auto. intros k r K. destruct (H k r K) as (_ & _ & Hn & _). apply Hn. now rewrite (U _ _ K). }
  pose proof (signal_of_rows junk c table m (labels s) t C1 N1 ltac:(now apply Forall_zth) S A E') as [Ct Lt].
  pose proof S as (Wm & Nm & Cm & Sm). destruct (zth_in table (zlen table - 1)) as [rl Hl]; [lia|].
  assert (Kt : count t = c) by (unfold count; now rewrite Ct). assert (Kl : Signal.length t = zlen table) by (unfold Signal.length; now rewrite Ct).
  assert (C2 : c <= count s). { destruct (H _ _ Hl) as (_ & B & _). now rewrite (U _ _ Hl) in B. }
  unfold damaged. rewrite Kt, Kl. split; [lia|]. split; [destruct (H _ _ Hl) as (B & _); lia|]. split; [apply labels_taken; auto; destruct W as [_ WL]; rewrite WL; change (nrows (channels s)) with (count s); lia|].
  split.
  - intros i k x I K D X. destruct (zth_in table k K) as [r Hr]. destruct (H _ _ Hr) as (_ & _ & _ & _ & B). rewrite (U _ _ Hr) in B.
    destruct (B i x D I X) as (y & Y & Ey). exists y. split; [|exact Ey]. rewrite Ct. now rewrite (Sm _ _ _ Hr).
  - intros N2. assert (c = count s) as Ec. { destruct (zth_in table 0) as [r Hr]; [lia|]. destruct (H _ _ Hr) as (_ & _ & _ & B & _). rewrite <- (U _ _ Hr). apply B. lia. }
    split; [exact Ec|].
    destruct (zth_in (map fst table) 0) as [first Hf]; [rewrite zlen_map; lia |]. destruct (zth_in (map fst table) (zlen table - 1)) as [last Hl']; [rewrite zlen_map; lia |].
    destruct (signal_from_rows_ok junk c table table m (labels s) first last) as (t' & Et' & D); auto; [now apply Forall_zth|].
    rewrite E' in Et'. injection Et' as <-.
    assert (SS : same_signal (mk_signal m (sampling_rate s) (offset s) None) t).
    { apply (described_same _ t table first last (labels s)); auto.
      - now apply mk_signal_wf.
      - change (2 <= cols m). lia.
      - intros k r Hr. destruct (H _ _ Hr) as (_ & _ & B & _). split; [apply B; now rewrite (U _ _ Hr)|]. intros i x X. cbn [channels mk_signal] in X.
        rewrite (Sm _ _ _ Hr) in X. exists x. split; [exact X|reflexivity].
      - change (count (mk_signal m (sampling_rate s) (offset s) None)) with (nrows m). now rewrite Nm. }
    destruct SS as (_ & S1 & S2). auto.
Qed.

Theorem signal_crash text p q t : (forall file, write_signal_csv show s = Ok file -> cells_fit nul limit file) ->
  save_signal_csv show s = Ok text -> text = p ++ q -> load_signal_csv nul limit junk parse p = Ok t -> t = default_signal \/ damaged s t.
Proof.
  intros S E -> H. destruct (csv_contents show s W F) as (file & Ef & D). unfold save_signal_csv in E. rewrite Ef in E. cbn [bind] in E. injection E as E.
  destruct (truncated_text nul limit file p q) as (rows & C & Er); auto.
  unfold load_signal_csv in H. rewrite Er in H. cbn [bind] in H. now apply (read_cut file rows t D C).
Qed.
End Signal.
