(** Specification vocabulary for CSV files with signals, spectrums and bands filters. *)

From Coq Require Import String ZArith QArith List Bool.
From Verif.Model Require Import Py Numpy Signal Tables Terms Filter Json.
From Verif.Spec Require Import CsvSpec.
Import ListNotations.
Open Scope list_scope.
Open Scope Z_scope.

(** A string is not too long for a cell, and it has no NUL characters, if these are not accepted. *)
Definition fits (nul : bool) (limit : Z) (s : string) : Prop := zlen (codes s) <= limit /\ readable nul (codes s).

(** All cells of a table *)
Definition cells_fit (nul : bool) (limit : Z) (file : csv) : Prop := Forall (Forall (fits nul limit)) file.

(** [b] is the beginning of [s]. *)
Definition starts (b s : string) : Prop := exists q, s = (b ++ q)%string.

(** The text of a value is not empty, it fits in a cell, and the value is restored. *)
Definition stored {T} (nul : bool) (limit : Z) (show : T -> string) (parse : string -> option T) (x : T) : Prop :=
  show x <> EmptyString /\ fits nul limit (show x) /\ parse (show x) = Some x.

(** The values of all supporting points meet a condition. *)
Definition values {K X} (F : filter K X) (P : K -> Prop) : Prop :=
  forall xs ys i e y, In (Bands xs ys i e) (transfer_functions F) -> In y ys -> P y.

(** [t] is the beginning of [s], except that the last sample of its last channel might be another one.  If it has only one sample, the other channels
    might be missing, and the sampling rate is unknown. *)
Definition damaged (s t : signal Q) : Prop :=
  1 <= count t <= count s /\ 1 <= Signal.length t <= Signal.length s /\
  labels t = ztake (count t) (labels s) /\
  (forall i k x, 0 <= i < count t -> 0 <= k < Signal.length t -> i < count t - 1 \/ k < Signal.length t - 1 ->
     el (channels s) i k = Some x -> exists y, el (channels t) i k = Some y /\ (y == x)%Q) /\
  (2 <= Signal.length t -> count t = count s /\ (sampling_rate t == sampling_rate s)%Q /\ offset t = offset s).
