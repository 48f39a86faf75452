(** What a table of times (or frequencies) and samples says.  Independent of the loops and the sorting of the model. *)

From Coq Require Import String ZArith QArith Qabs List Bool Permutation Sorted.
From Verif.Model Require Import Py Numpy Functions Signal Spectrum Tables.
Import ListNotations.
Open Scope list_scope.
Open Scope Z_scope.

(** Reading the text, that is written for a value, restores the value. *)
Definition restores {X} (same : X -> X -> Prop) (show : X -> string) (parse : string -> option X) : Prop :=
  forall x, exists y, parse (show x) = Some y /\ same y x.

(** Complex numbers with the same parts *)
Definition same_complex (a b : Q * Q) : Prop := (fst a == fst b)%Q /\ (snd a == snd b)%Q.

(** A row of texts contains a number and some samples. *)
Definition is_row {A} (parse : string -> option Q) (parse_sample : string -> option A) (texts : list string) (r : Q * list A) : Prop :=
  match texts with
  | [] => False
  | text :: cells => parse text = Some (fst r) /\ Forall2 (fun c x => parse_sample c = Some x) cells (snd r)
  end.

(** [sorted] has the same rows as [table], but with increasing numbers in the first column. *)
Definition arrangement {A} (table sorted : list (Q * list A)) : Prop :=
  Permutation table sorted /\ StronglySorted Qlt (map fst sorted).

(** All rows have [c] samples. *)
Definition uniform {A} (c : Z) (table : list (Q * list A)) : Prop := Forall (fun r => zlen (snd r) = c) table.

(** The [k]-th row of the table contains the [k]-th samples of the channels. *)
Definition samples_of {A} (c : Z) (table : list (Q * list A)) (m : arr A) : Prop :=
  wf m /\ nrows m = c /\ cols m = zlen table /\ forall i k r, zth table k = Some r -> el m i k = zth (snd r) i.

(** [z] is the integer, that is nearest to [q]; the even one of two. *)
Definition nearest (q : Q) (z : Z) : Prop :=
  (Qabs (q - inject_Z z) <= 1 # 2)%Q /\ ((Qabs (q - inject_Z z) == 1 # 2)%Q -> Z.even z = true).

(** Each channel gets its label or an empty one. *)
Definition labelled (given : list string) (n : Z) (labels : list string) : Prop :=
  zlen labels = n /\ forall i, 0 <= i < n -> zth labels i = Some (match zth given i with Some l => l | None => EmptyString end).

(** Two matrices with the same samples *)
Definition same_matrix {A} (same : A -> A -> Prop) (m m' : arr A) : Prop :=
  wf m' /\ nrows m' = nrows m /\ cols m' = cols m /\ forall i k x, el m i k = Some x -> exists y, el m' i k = Some y /\ same y x.

(** Two signals, that differ at most in their labels *)
Definition same_signal (s t : signal Q) : Prop :=
  same_matrix Qeq (channels s) (channels t) /\ (sampling_rate t == sampling_rate s)%Q /\ offset t = offset s.
Definition same_spectrum {A} (same : A -> A -> Prop) (s t : spectrum A Q) : Prop :=
  same_matrix same (sp_channels s) (sp_channels t) /\ (resolution t == resolution s)%Q.

(** The signal, that is described by a table: its [k]-th samples are those of the [k]-th row in the order of the times; the sampling rate
    and the offset are those of equidistant samples between the first and the last time. *)
Definition describes_signal (c : Z) (given : list string) (sorted : list (Q * list Q)) (first last : Q) (s : signal Q) : Prop :=
  samples_of c sorted (channels s)
  /\ (sampling_rate s == inject_Z (zlen sorted - 1) / (last - first))%Q
  /\ nearest (first * sampling_rate s) (offset s)
  /\ labelled given c (labels s).

(** The spectrum, that is described by a table: the samples are zero below the first frequency. *)
Definition describes_spectrum {A} (zero : A) (c : Z) (given : list string) (sorted : list (Q * list A)) (first last : Q) (s : spectrum A Q) : Prop :=
  exists z, (resolution s == (last - first) / inject_Z (zlen sorted - 1))%Q
  /\ nearest (first / resolution s) z
  /\ wf (sp_channels s) /\ sp_count s = c /\ sp_length s = zlen sorted + z
  /\ (forall i k, 0 <= i < c -> 0 <= k < z -> el (sp_channels s) i k = Some zero)
  /\ (forall i k r, zth sorted k = Some r -> 0 <= z + k -> el (sp_channels s) i (z + k) = zth (snd r) i)
  /\ labelled given c (sp_labels s).

(** A file of texts: the first row has a title and the labels; each other row has a number of the first column and a sample of each channel. *)
Definition written_table {A} (show : Q -> string) (show_sample : A -> string) (title : string) (labels : list string)
    (number : Z -> Q) (m : arr A) (file : csv) : Prop :=
  exists body, file = (title :: labels) :: body /\ zlen body = cols m
  /\ forall k, 0 <= k < cols m -> exists t cells, zth body k = Some (show t :: cells) /\ (t == number k)%Q
      /\ zlen cells = nrows m /\ forall i x, el m i k = Some x -> zth cells i = Some (show_sample x).
