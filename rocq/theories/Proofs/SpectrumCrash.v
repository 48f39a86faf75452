(** Truncated CSV files with spectrums. *)

From Coq Require Import String ZArith QArith List Bool Qfield Lia ZifyBool Lqa Permutation Sorted.
From Verif.Model Require Import Py Numpy Functions Spectrum Tables Csv Json JsonFiles CsvFiles.
From Verif.Spec Require Import TablesSpec CsvSpec CsvFilesSpec CsvCrashSpec.
From Verif.Proofs Require Import PyFacts NumpyFacts SliceFacts SortFacts TableFacts TableResults TableRounding TableSpectrum JsonText JsonFilesFacts CsvText CsvReading CsvFilesFacts CsvCrash.
Import ListNotations.
Open Scope list_scope.
Open Scope Z_scope.

Section Spectrum.
Context {A : Type}.
Variables (zero : A) (eqb : A -> A -> bool) (same : A -> A -> Prop).
Variables (nul : bool) (limit : Z) (junk : Z -> Z -> A) (path : string).
Variables (show : Q -> string) (show_sample : A -> string) (parse : string -> option Q) (parse_sample : string -> option A).
Variable s : spectrum A Q.
Hypothesis R : restores Qeq show parse.
Hypothesis R2 : restores same show_sample parse_sample.
Hypothesis P : forall b, starts b "frequency" -> parse b = None.
Hypothesis W : wf_spectrum s.
Hypothesis F : (0 < resolution s)%Q.
Notation number := (fun k => inject_Z k * resolution s)%Q.

Lemma spectrum_of_rows c table m given t : 1 <= c -> 1 <= zlen table -> uniform c table -> samples_of c table m -> arrangement table table ->
  (forall x, zth (map fst table) 0 = Some x -> (x == 0)%Q) ->
  spectrum_from_rows zero eqb junk (map fst table) m given = Ok t -> sp_channels t = m /\ labelled given c (sp_labels t).
Proof.
  intros C N U S H Hz E. unfold spectrum_from_rows in E. destruct (sorted_rows_ok eqb less_complex c table table m m) as (b & B); auto. rewrite B in E.
  pose proof S as (Wm & Nm & Cm & _). replace (negb (nrows m =? 0) && negb (cols m =? 0)) with true in E by lia.
  destruct (zth_in (map fst table) 0) as [lo Hl]; [rewrite zlen_map; lia|].
  rewrite (sort_unique _ (map fst table)) in E by (auto; apply H). rewrite (getitem_zth _ 0 lo) in E by (auto; lia). cbn [bind] in E.
  apply bind_ok in E as (hi & _ & E). cbn [bind] in E.
  match type of E with context [if ?x =? 0 then _ else _] => assert (Z0 : x = 0) end.
  { destruct (Qeq_bool _ 0); [reflexivity|]. match goal with |- py_round (_ / ?r)%Q = 0 => generalize r end. intros res. apply nearest_integer. eapply nearest_compat; [|apply py_round_is_nearest]. rewrite (Hz _ Hl). unfold Qdiv. now rewrite Qmult_0_l. }
  rewrite Z0 in E. cbn [Z.eqb] in E. rewrite copy_array_ok in E by exact Wm. cbn [bind] in E. injection E as <-. split; [reflexivity|]. cbn [sp_labels mk_spectrum]. rewrite Nm. apply adapt_labels_ok. lia.
Qed.

Lemma frequency_none : parse "frequency"%string = None.
Proof. apply P. now exists EmptyString. Qed.

(** The rows of a truncated file *)
Lemma cut_rows body left table : written_table show show_sample "frequency" (sp_labels s) number (sp_channels s) (("frequency"%string :: sp_labels s) :: body) -> cut left body ->
  Forall2 (is_row parse parse_sample) left table -> forall k r, zth table k = Some r -> 0 <= k < sp_length s /\ zlen (snd r) <= sp_count s /\
   (1 <= zlen (snd r) -> (fst r == number k)%Q) /\ (k < zlen table - 1 -> zlen (snd r) = sp_count s) /\
   forall i x, i < zlen (snd r) - 1 \/ k < zlen table - 1 -> 0 <= i < zlen (snd r) -> el (sp_channels s) i k = Some x -> exists y, zth (snd r) i = Some y /\ same y x.
Proof.
  intros (body' & E & L & H) [LC C] T k r K. injection E as <-. pose proof (forall2_zlen _ _ _ T) as LT.
  destruct (zth_in left k) as [short S]; [rewrite LT; now apply zth_range in K|]. destruct (C k short S) as (row & Hr & D). pose proof (zth_range _ _ _ Hr) as KR. rewrite L in KR.
  destruct (H k KR) as (t & cells & Hc & Et & Lc & HS). rewrite Hr in Hc. injection Hc as ->. pose proof (forall2_at _ _ _ T _ _ _ S K) as I.
  destruct short as [|t' cells']; [destruct I|]. destruct I as [It Ic]. pose proof (forall2_zlen _ _ _ Ic) as LI.
  change (cols (sp_channels s)) with (sp_length s) in *. change (nrows (sp_channels s)) with (sp_count s) in *.
  assert (Q1 : zlen cells' <= sp_count s /\ (1 <= zlen cells' -> t' = show t) /\ (k < zlen table - 1 -> zlen cells' = sp_count s) /\
     forall i, i < zlen cells' - 1 \/ k < zlen table - 1 -> 0 <= i < zlen cells' -> zth cells' i = zth cells i).
  { destruct D as [D|[-> (cb & b & c & ca & E & E' & B)]].
    - injection D as -> ->. repeat split; auto; lia.
    - destruct cb as [|x cb].
      + injection E as -> ->. rewrite zlen_nil. pose proof (zlen_nonneg cells). repeat split; intros; lia.
      + injection E as -> ->. injection E' as <- ->. rewrite zlen_app, zlen_cons in Lc. rewrite zlen_app, zlen_cons, zlen_nil. pose proof (zlen_nonneg ca).
        repeat split; try lia; auto. intros i [I|I] I'; [|lia]. rewrite !zth_app. now replace (i <? zlen cb) with true by lia. }
  destruct Q1 as (Q1 & Q2 & Q3 & Q4). rewrite <- LI. repeat split; try lia; auto.
  - intros N. rewrite (Q2 N) in It. destruct (R t) as (y & Py & Ey). rewrite Py in It. injection It as <-. now rewrite Ey.
  - intros i x I I' X. destruct (zth_in (snd r) i) as [y Y]; [lia|]. exists y. split; [exact Y|]. destruct (zth_in cells' i) as [c Hc]; [lia|].
    pose proof (forall2_at _ _ _ Ic _ _ _ Hc Y) as Py. rewrite Q4, (HS _ _ X) in Hc by auto. injection Hc as <-. destruct (R2 x) as (y' & Py' & Ey'). rewrite Py' in Py. injection Py as <-. exact Ey'.
Qed.

Lemma read_cut file left t : written_table show show_sample "frequency" (sp_labels s) number (sp_channels s) file -> cut left file ->
  read_spectrum_csv zero eqb junk parse parse_sample path left = Ok t -> t = default_spectrum \/ damaged_spectrum same s t.
Proof.
  intros T [LC C] E. pose proof T as (body & -> & L & _). destruct left as [|header left]; [discriminate|].
  assert (HD : exists name given, header = name :: given /\ parse name = None /\ (left = [] \/ given = sp_labels s)).
  { destruct (C 0 header eq_refl) as (row & Hr & D). injection Hr as <-. destruct D as [-> |[D (cb & b & c & ca & -> & E' & B)]].
    - exists "frequency"%string, (sp_labels s). split; [reflexivity|]. split; [apply frequency_none|now right].
    - assert (left = []) as ->. { rewrite zlen_cons in D. destruct left; [reflexivity|]. rewrite zlen_cons in D. pose proof (zlen_nonneg left). lia. }
      destruct cb as [|x cb]; injection E' as <- E'.
      + exists b, []. split; [reflexivity|]. split; [now apply P|now left].
      + exists "frequency"%string, (cb ++ [b]). split; [reflexivity|]. split; [apply frequency_none|now left]. }
  destruct HD as (name & given & -> & Pn & G). unfold read_spectrum_csv, read_csv in E. change (getitem (name :: given) 0) with (Ok name) in E. cbn [bind] in E.
  rewrite Pn, subseq_from_1 in E. cbn [app] in E. apply bind_ok in E as (r & E & E'). apply bind_ok in E as (table & Et & E). apply bind_ok in E as (m & Em & E). injection E as <-.
  cbn [app] in *. apply parse_rows_are in Et. destruct table as [|r0 table'] eqn:ET.
  { cbn in Em. injection Em as <-. left. cbn in E'. now injection E' as <-. }
  rewrite <- ET in *. assert (N1 : 1 <= zlen table) by (rewrite ET, zlen_cons; pose proof (zlen_nonneg table'); lia).
  assert (given = sp_labels s) as ->. { destruct G as [-> |G]; [|exact G]. inversion Et; subst. discriminate. }
  pose proof (transposed_uniform _ _ _ _ ET Em) as U. set (c := zlen (snd r0)) in *. pose proof (zlen_nonneg (snd r0)) as C0. fold c in C0.
  destruct (transposed_ok c table) as (m' & Em' & S); auto. rewrite Em in Em'. injection Em' as <-.
  assert (CB : cut left body).
  { rewrite !zlen_cons in LC. split; [lia|]. intros k short K. pose proof (zth_range _ _ _ K). destruct (C (k + 1) short) as (row & Hr & D).
    - rewrite zth_cons. replace (k + 1 =? 0) with false by lia. now replace (k + 1 - 1) with k by lia.
    - rewrite zth_cons in Hr. replace (k + 1 =? 0) with false in Hr by lia. replace (k + 1 - 1) with k in Hr by lia. exists row. split; [exact Hr|].
      destruct D as [D|[D D']]; [now left|right]. rewrite zlen_cons in D. split; [lia|exact D']. }
  pose proof (cut_rows body left table T CB Et) as H. unfold uniform in U. rewrite Forall_zth in U.
  destruct (Z.eq_dec c 0) as [Z0|Z0].
  { left. destruct S as (_ & Nm & _). unfold spectrum_from_rows in E'. replace (nrows m =? 0) with true in E' by lia. cbn in E'. now injection E' as <-. }
  right. assert (C1 : 1 <= c) by lia.
  assert (Ar : arrangement table table). { apply (frequency_table_sorted s); auto. intros k r K. destruct (H k r K) as (_ & _ & Hn & _). apply Hn. now rewrite (U _ _ K). }
  assert (Hz : forall x, zth (map fst table) 0 = Some x -> (x == 0)%Q).
  { intros x X. rewrite zth_map in X. destruct (zth table 0) as [r|] eqn:T0; [|discriminate]. injection X as <-. destruct (H _ _ T0) as (_ & _ & Hn & _).
    rewrite Hn by now rewrite (U _ _ T0). apply Qmult_0_l. }
  pose proof (spectrum_of_rows c table m (sp_labels s) t C1 N1 ltac:(now apply Forall_zth) S Ar Hz E') as [Ct Lt].
  pose proof S as (Wm & Nm & Cm & Sm). destruct (zth_in table (zlen table - 1)) as [rl Hl]; [lia|].
  assert (Kt : sp_count t = c) by (unfold sp_count; now rewrite Ct). assert (Kl : sp_length t = zlen table) by (unfold sp_length; now rewrite Ct).
  assert (C2 : c <= sp_count s). { destruct (H _ _ Hl) as (_ & B & _). now rewrite (U _ _ Hl) in B. }
  unfold damaged_spectrum. rewrite Kt, Kl. split; [lia|]. split; [destruct (H _ _ Hl) as (B & _); lia|]. split; [apply labels_taken; auto; destruct W as [_ WL]; rewrite WL; change (nrows (sp_channels s)) with (sp_count s); lia|].
  split.
  - intros i k x I K D X. destruct (zth_in table k K) as [r Hr]. destruct (H _ _ Hr) as (_ & _ & _ & _ & B). rewrite (U _ _ Hr) in B.
    destruct (B i x D I X) as (y & Y & Ey). exists y. split; [|exact Ey]. rewrite Ct. now rewrite (Sm _ _ _ Hr).
  - intros N2. assert (c = sp_count s) as Ec. { destruct (zth_in table 0) as [r Hr]; [lia|]. destruct (H _ _ Hr) as (_ & _ & _ & B & _). rewrite <- (U _ _ Hr). apply B. lia. }
    split; [exact Ec|].
    destruct (zth_in (map fst table) 0) as [first Hf]; [rewrite zlen_map; lia |]. destruct (zth_in (map fst table) (zlen table - 1)) as [last Hl']; [rewrite zlen_map; lia |].
    destruct (spectrum_from_rows_ok zero eqb junk c table table m (sp_labels s) first last) as (t' & Et' & D); auto; [now apply Forall_zth|rewrite (Hz _ Hf); apply Qle_refl|].
    rewrite E' in Et'. injection Et' as <-. destruct D as (z & Rt & _). rewrite Rt. rewrite zth_map in Hf, Hl'.
    destruct (zth table 0) as [r0'|] eqn:T0; [|discriminate]. destruct (zth table (zlen table - 1)) as [r1|] eqn:T1; [|discriminate]. injection Hf as <-. injection Hl' as <-.
    destruct (H _ _ T0) as (_ & _ & B0 & _). destruct (H _ _ T1) as (_ & _ & B1 & _). rewrite B0, B1 by (rewrite (U _ _ T0) || rewrite (U _ _ T1); exact C1).
    change (inject_Z 0) with 0%Q. field. apply positive_nonzero, inject_pos. lia.
Qed.

Theorem spectrum_crash text p q t : (forall file, write_spectrum_csv show show_sample s = Ok file -> cells_fit nul limit file) ->
  save_spectrum_csv show show_sample s = Ok text -> text = p ++ q -> load_spectrum_csv zero eqb nul limit junk parse parse_sample path p = Ok t ->
  t = default_spectrum \/ damaged_spectrum same s t.
Proof.
  intros S E -> H. destruct (spectrum_csv_contents show show_sample s W) as (file & Ef & D). unfold save_spectrum_csv in E. rewrite Ef in E. cbn [bind] in E. injection E as E.
  destruct (truncated_text nul limit file p q) as (rows & C & Er); auto.
  unfold load_spectrum_csv in H. rewrite Er in H. cbn [bind] in H. now apply (read_cut file rows t D C).
Qed.
End Spectrum.
