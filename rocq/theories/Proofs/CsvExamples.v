(** Examples of CSV files. *)

From Coq Require Import String Ascii Reals Lra ZArith QArith List Bool Lia ZifyBool.
From Verif.Model Require Import Py Numpy Signal Spectrum Text Tables Terms Filter Csv Json JsonFiles CsvFiles.
From Verif.Spec Require Import TablesSpec NumeralSpec BandsSpec CsvSpec CsvFilesSpec.
From Verif.Proofs Require Import TextFacts JsonText JsonExamples BandsCases.
Import ListNotations.
Open Scope string_scope.
Open Scope list_scope.
Open Scope Z_scope.

(** Rational numbers with a point between the decimal digits of the numerator and those of the denominator *)
Definition decimal_show (x : Q) : string := (py_str (Qnum x) ++ String "." (text (Zpos (Qden x))))%string.
Definition decimal_read (s : string) : option Q :=
  match codes s with c :: _ => if (c =? 45) || ((48 <=? c) && (c <=? 57)) then demo_read (codes s) else None | [] => None end.

Lemma decimal_restored : restores Qeq decimal_show decimal_read.
Proof.
  intros x. exists x. split; [|reflexivity]. destruct (demo_faithful x I) as [_ H]. unfold decimal_read.
  assert (E : codes (decimal_show x) = demo_show x) by (unfold decimal_show; rewrite codes_app; reflexivity). rewrite E.
  assert (C : exists c t, demo_show x = c :: t /\ (c = 45 \/ 48 <= c <= 57)).
  { unfold demo_show. destruct (Z.lt_ge_cases (Qnum x) 0) as [L|L].
    - rewrite py_str_neg by auto. cbn [codes app]. eexists _, _. split; [reflexivity|left; reflexivity].
    - rewrite py_str_nonneg by auto. destruct (text_ok (Qnum x) L) as (DG & _ & c & t & E1 & _). rewrite E1 in *. cbn [app]. eexists _, _. split; [reflexivity|right]. inversion DG as [|? ? D _]. unfold ascii_digit in D. lia. }
  destruct C as (c & t & Ec & C). rewrite Ec. replace ((c =? 45) || ((48 <=? c) && (c <=? 57))) with true by lia. now rewrite <- Ec.
Qed.

Lemma decimal_time b : starts b "time" -> decimal_read b = None.
Proof.
  intros [q E]. destruct b as [|c b]; [reflexivity|]. cbn [String.append] in E. injection E as <- _. reflexivity.
Qed.

Definition csv_signal : signal Q := Signal (Arr [[1; 2 # 3; -(5)]; [3 # 7; 0; 2 # 31]]%Q 3) 10%Q 4 ["left, front"; "the ""right"" one"].
Definition csv_limit : Z := 131072.
Lemma csv_signal_fine : wf_signal csv_signal /\ 1 <= count csv_signal /\ 2 <= Signal.length csv_signal /\ (0 < sampling_rate csv_signal)%Q /\
  forall file, write_signal_csv decimal_show csv_signal = Ok file -> cells_fit false csv_limit file.
Proof.
  split; [split; [split; [cbn; lia|repeat constructor]|reflexivity]|]. split; [vm_compute; discriminate|]. split; [vm_compute; discriminate|]. split; [reflexivity|].
  intros file E. vm_compute in E. injection E as <-. unfold cells_fit, fits, readable.
  repeat (apply Forall_cons || apply Forall_nil); (split; [vm_compute; discriminate|right; cbn; intuition discriminate]).
Qed.

Definition csv_spectrum : spectrum (Q * Q) Q := Spectrum (Arr [[(1, -(2)); (2 # 3, 0)]]%Q 2) (1 # 10) ["a spectrum"].
Lemma csv_spectrum_fine : wf_spectrum csv_spectrum /\ 1 <= sp_count csv_spectrum /\ 2 <= sp_length csv_spectrum /\ (0 < resolution csv_spectrum)%Q /\
  forall file, write_spectrum_csv show_number show_complex csv_spectrum = Ok file -> cells_fit false csv_limit file.
Proof.
  split; [split; [split; [cbn; lia|repeat constructor]|reflexivity]|]. split; [vm_compute; discriminate|]. split; [vm_compute; discriminate|]. split; [reflexivity|].
  intros file E. vm_compute in E. injection E as <-. unfold cells_fit, fits, readable.
  repeat (apply Forall_cons || apply Forall_nil); (split; [vm_compute; discriminate|right; cbn; intuition discriminate]).
Qed.

(** A notation for some real numbers *)
Definition show_some (x : R) : string :=
  if Req_EM_T x 1 then "1.0" else if Req_EM_T x 2 then "2.0" else if Req_EM_T x 3 then "3.0" else if Req_EM_T x 4 then "4.0" else
  if Req_EM_T x 5 then "5.0" else if Req_EM_T x 10 then "10.0" else if Req_EM_T x 15 then "15.0" else "".
Definition read_some (s : string) : option R :=
  match s with "1.0" => Some 1%R | "2.0" => Some 2%R | "3.0" => Some 3%R | "4.0" => Some 4%R | "5.0" => Some 5%R | "10.0" => Some 10%R | "15.0" => Some 15%R | _ => None end.
Lemma some_stored x : In x [1; 2; 3; 4; 5; 10; 15]%R -> stored false csv_limit show_some read_some x.
Proof.
  intros H. assert (E : In (show_some x) ["1.0"; "2.0"; "3.0"; "4.0"; "5.0"; "10.0"; "15.0"] /\ read_some (show_some x) = Some x).
  { cbn in H. destruct H as [<-|[<-|[<-|[<-|[<-|[<-|[<-|[]]]]]]]]; unfold show_some;
      repeat match goal with |- context [Req_EM_T ?a ?b] => let D := fresh in destruct (Req_EM_T a b) as [D|D]; [try (exfalso; clear -D; lra)|try (now elim D)] end;
      (split; [cbn; auto 20|reflexivity]). }
  destruct E as [E P]. assert (G : show_some x <> "" /\ fits false csv_limit (show_some x)).
  { unfold fits, readable. destruct E as [<-|[<-|[<-|[<-|[<-|[<-|[<-|[]]]]]]]]; (split; [discriminate|split; [vm_compute; discriminate|right; cbn; intuition discriminate]]). }
  split; [apply G|]. split; [apply G|exact P].
Qed.

Lemma csv_bands_fine : read_some "frequency" = None /\ frequencies demo_stored (stored false csv_limit show_some read_some) /\
  values demo_stored (stored false csv_limit show_some read_some) /\ fits false csv_limit "frequency" /\ Forall (fits false csv_limit) (f_labels demo_stored).
Proof.
  split; [reflexivity|]. split; [|split; [|split]].
  - intros xs ys i e x H Hx. apply some_stored. cbn in H. destruct H as [H|[H|[H|[]]]]; injection H as <- _ _ _; cbn in *; intuition.
  - intros xs ys i e y H Hy. apply some_stored. cbn in H. destruct H as [H|[H|[H|[]]]]; injection H as _ <- _ _; cbn in *; intuition.
  - split; [vm_compute; discriminate|right; cbn; intuition discriminate].
  - unfold fits, readable. repeat (apply Forall_cons || apply Forall_nil); (split; [vm_compute; discriminate|right; cbn; intuition discriminate]).
Qed.

(** The last digit and the line break are missing. *)
Definition csv_cut : list Z := match save_signal_csv decimal_show csv_signal with Ok t => ztake (zlen t - 3) t | Err _ => [] end.
Lemma csv_cut_loaded : exists q t, save_signal_csv decimal_show csv_signal = Ok (csv_cut ++ q) /\ q <> [] /\
  load_signal_csv false csv_limit (fun _ _ => 0%Q) decimal_read csv_cut = Ok t /\ Signal.length t = Signal.length csv_signal /\ count t = count csv_signal /\
  el (channels csv_signal) 1 2 = Some (2 # 31)%Q /\ el (channels t) 1 2 = Some (2 # 3)%Q.
Proof. exists [49; 13; 10]. eexists. repeat split; try (vm_compute; reflexivity). discriminate. Qed.

(** Only a part of the first row is left. *)
Lemma csv_header_loaded : exists q, save_signal_csv decimal_show csv_signal = Ok (codes "tim" ++ q) /\ load_signal_csv false csv_limit (fun _ _ => 0%Q) decimal_read (codes "tim") = Ok default_signal.
Proof.
  destruct (save_signal_csv decimal_show csv_signal) as [t|e] eqn:E; [|vm_compute in E; discriminate]. exists (zdrop 3 t). split; [|reflexivity].
  vm_compute in E. injection E as <-. reflexivity.
Qed.
