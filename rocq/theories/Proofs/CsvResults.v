(** What the reader makes of CSV texts. *)

From Coq Require Import String ZArith QArith List Bool Lia ZifyBool.
From Verif.Model Require Import Py Numpy Signal Tables Terms Filter Bands Csv Json CsvFiles.
From Verif.Spec Require Import TablesSpec BandsSpec RealSpec CsvSpec CsvFilesSpec.
From Verif.Proofs Require Import PyFacts BandsCases CsvText CsvReading CsvFilesFacts CsvExamples.
Import ListNotations.
Open Scope list_scope.
Open Scope Z_scope.

Lemma reader nul limit text rows : file_text text rows -> within limit rows -> readable nul text -> read_rows nul limit text = Ok rows.
Proof. rewrite read_run. apply read_text. Qed.
Lemma round_trip nul limit rows : within limit rows -> (forall row c, In row rows -> In c row -> readable nul c) -> read_rows nul limit (write_rows rows) = Ok rows.
Proof.
  intros W R. apply reader; auto; [apply strict_file, write_rows_text|]. destruct (Bool.bool_dec nul true) as [N|N]; [now left|]. right. intros I.
  apply in_write_rows in I as [I|(cs & c & I & J & H)].
  - destruct I as [I|[I|[I|[I|[]]]]]; discriminate.
  - destruct (R cs c I J); auto.
Qed.
Lemma any nul limit text : readable nul text -> zlen text <= limit -> exists rows, read_rows nul limit text = Ok rows.
Proof. intros R L. rewrite read_run. apply any_text; auto. cbn. discriminate. Qed.
Lemma truncated nul limit text rows p q : file_text text rows -> within limit rows -> text = p ++ q -> readable nul p ->
  exists left, remainder left rows /\ read_rows nul limit p = Ok left.
Proof. intros F W E R. rewrite read_run. now apply (cut_text nul limit text rows F W p q). Qed.
Lemma long nul limit text rows : 0 <= limit -> file_text text rows -> ~ within limit rows -> readable nul text -> read_rows nul limit text = Err RuntimeError.
Proof. rewrite read_run. apply long_text. Qed.
Lemma with_nul limit text : In 0 text -> read_rows false limit text = Err RuntimeError.
Proof. intros H. rewrite read_run. now apply run_nul. Qed.

Ltac plain := apply plain_cell; repeat (apply Forall_cons; [repeat split; discriminate|]); apply Forall_nil.

Lemma reader_case : file_text (codes """a""""b"",c" ++ [13] ++ codes "," ++ [10; 10] ++ codes "d") [[codes "a""b"; codes "c"]; [[]; []]; []; [codes "d"]] /\
  within 131072 [[codes "a""b"; codes "c"]; [[]; []]; []; [codes "d"]] /\ readable false (codes """a""""b"",c" ++ [13] ++ codes "," ++ [10; 10] ++ codes "d").
Proof.
  split; [|split].
  - apply (more_rows (codes """a""""b"",c") _ [13] (codes "," ++ [10; 10] ++ codes "d")).
    + apply row_of_cells; [discriminate|]. apply (more_cells (codes """a""""b""") _ (codes "c")); [|apply last_cell; plain].
      apply (quoted_cell (codes "a""""b")). apply doubled_other; [discriminate|]. apply doubled_quote. apply doubled_other; [discriminate|]. apply doubled_nil.
    + apply break_cr. discriminate.
    + apply (more_rows (codes ",") _ [10] (10 :: codes "d")).
      * apply row_of_cells; [discriminate|]. apply (more_cells [] [] []); [plain|apply last_cell; plain].
      * apply break_lf.
      * apply (more_rows [] [] [10] (codes "d")); [apply empty_line|apply break_lf|]. apply last_row; [discriminate|]. apply row_of_cells; [discriminate|]. apply last_cell. plain.
  - intros cs c I J. cbn [In] in I. destruct I as [<-|[<-|[<-|[<-|[]]]]]; cbn [In] in J; repeat destruct J as [<-|J]; try contradiction; vm_compute; discriminate.
  - right. cbn. intuition discriminate.
Qed.

Lemma round_trip_case : let rows := [[]; [[]]; [codes "a,b"; []; codes """"]; [[10; 13]]] in
  within 131072 rows /\ forall row c, In row rows -> In c row -> readable false c.
Proof.
  cbv zeta. split.
  - intros cs c I J. cbn [In] in I. destruct I as [<-|[<-|[<-|[<-|[]]]]]; cbn [In] in J; repeat destruct J as [<-|J]; try contradiction; vm_compute; discriminate.
  - intros cs c I J. right. cbn [In] in I. destruct I as [<-|[<-|[<-|[<-|[]]]]]; cbn [In] in J; repeat destruct J as [<-|J]; try contradiction; cbn; intuition discriminate.
Qed.

Lemma any_case : readable false (codes "a""b"",""c") /\ zlen (codes "a""b"",""c") <= 131072.
Proof. split; [right; cbn; intuition discriminate|vm_compute; discriminate]. Qed.

Lemma in_zrepeat {T} (x y : T) n : In y (zrepeat x n) -> y = x.
Proof. intros H. apply In_zth in H as [k H]. rewrite zth_repeat in H. destruct (_ && _) in H; [now injection H|discriminate]. Qed.

Lemma long_case : file_text (codes "a,b" ++ zrepeat 97 131073) [[codes "a"; 98 :: zrepeat 97 131073]] /\ ~ within 131072 [[codes "a"; 98 :: zrepeat 97 131073]] /\
  readable false (codes "a,b" ++ zrepeat 97 131073).
Proof.
  split; [|split].
  - apply last_row; [discriminate|]. apply row_of_cells; [discriminate|]. apply (more_cells (codes "a") _ (98 :: zrepeat 97 131073)); [plain|].
    apply last_cell, plain_cell. apply Forall_forall. intros y [<-|H]; [repeat split; discriminate|]. apply in_zrepeat in H as ->. repeat split; discriminate.
  - intros W. specialize (W _ (98 :: zrepeat 97 131073) (or_introl eq_refl) (or_intror (or_introl eq_refl))). rewrite zlen_cons, zlen_repeat in W. lia.
  - right. intros H. apply in_app_iff in H as [H|H]; [cbn in H; intuition discriminate|]. apply in_zrepeat in H. discriminate.
Qed.

Lemma not_all_rows : ~ (forall rows, read_rows true 131072 (write_rows rows) = Ok rows) /\ ~ (forall limit rows, within limit rows -> read_rows false limit (write_rows rows) = Ok rows).
Proof.
  split; intros H.
  - specialize (H [[zrepeat 97 131073]]). rewrite (long true 131072 _ [[zrepeat 97 131073]]) in H; [discriminate|discriminate|apply strict_file, write_rows_text| |now left].
    intros W. specialize (W _ (zrepeat 97 131073) (or_introl eq_refl) (or_introl eq_refl)). rewrite zlen_repeat in W. lia.
  - specialize (H 10 [[[0]]]). rewrite with_nul in H by (vm_compute; now left). assert (W : within 10 [[[0]]]).
    { intros cs c [<-|[]] [<-|[]]. vm_compute. discriminate. }
    specialize (H W). discriminate.
Qed.

Lemma crash_undetected : restores Qeq decimal_show decimal_read /\
  (exists p q t, save_signal_csv decimal_show csv_signal = Ok (p ++ q) /\ q <> [] /\ load_signal_csv false csv_limit (fun _ _ => 0%Q) decimal_read p = Ok t /\
     Signal.length t = Signal.length csv_signal /\ count t = count csv_signal /\
     exists i k x y, el (channels csv_signal) i k = Some x /\ el (channels t) i k = Some y /\ ~ (y == x)%Q) /\
  exists p q, save_signal_csv decimal_show csv_signal = Ok (p ++ q) /\ load_signal_csv false csv_limit (fun _ _ => 0%Q) decimal_read p = Ok default_signal.
Proof.
  split; [exact decimal_restored|]. split.
  - destruct csv_cut_loaded as (q & t & A & B & C & D & E & X & Y). exists csv_cut, q, t. repeat (split; [assumption|]). exists 1, 2, (2 # 31)%Q, (2 # 3)%Q. repeat (split; [assumption|]). discriminate.
  - destruct csv_header_loaded as (q & A & B). exists (codes "tim"), q. auto.
Qed.

Lemma bands_case : forall power modulo, let A := real_arithmetic power modulo in
  ordered A /\ bands_filter A demo_stored /\ zlen (f_labels demo_stored) = f_count demo_stored /\
  read_some "frequency" = None /\ frequencies demo_stored (stored false csv_limit show_some read_some) /\
  values demo_stored (stored false csv_limit show_some read_some) /\ fits false csv_limit "frequency" /\ Forall (fits false csv_limit) (f_labels demo_stored).
Proof.
  intros power modulo A. split; [now apply real_ordered|]. destruct (demo_stored_ok A) as (B & L & _); [reflexivity|]. split; [exact B|]. split; [exact L|]. exact csv_bands_fine.
Qed.
