(** Model of /repo/sumpf/_blocks/_merge.py: the order of the merged channels, merging
    signals and spectrums.  Merging filters and spectrograms is in CubeBlocks.v. *)

From Coq Require Import String ZArith List Bool.
From Verif.Model Require Import Py Numpy Functions Signal Spectrum.
Import ListNotations.
Open Scope Z_scope.

(** _internal/_enums.py, MergeMode *)
Inductive merge_mode := FIRST_DATASET_FIRST | FIRST_CHANNELS_FIRST.

(** _merge.py:187-191: a running index. *)
Fixpoint dataset_first (i : Z) (counts : list Z) : list Z :=
  match counts with
  | [] => []
  | n :: t => zseq i n ++ dataset_first (i + Z.max 0 n) t
  end.

(** The number of entries of [l] above [k]: [len(l[l > k])]. *)
Definition above (k : Z) (l : list Z) : Z := zlen (filter (fun n => k <? n) l).

(** _merge.py:196-200, the inner loop for the data set number [o], whose next index is [p];
    [fuel] is the number of remaining iterations, [i] the loop variable. *)
Fixpoint channels_first_inner (counts : list Z) (o : Z) (fuel : nat) (i p : Z) : list Z :=
  match fuel with
  | O => []
  | S n =>
      p :: channels_first_inner counts o n (i + 1)
             (p + (above i (zdrop o counts) + above (i + 1) (ztake o counts)))
  end.

(** _merge.py:193-200 *)
Definition channels_first (counts : list Z) : list Z :=
  concat (map2 (fun o l => channels_first_inner counts o (Z.to_nat l) 0 o) (zseq 0 (zlen counts)) counts).

(** _merge.py:179-202, [__indices] *)
Definition merge_indices (mode : merge_mode) (counts : list Z) : list Z :=
  match mode with
  | FIRST_DATASET_FIRST => dataset_first 0 counts
  | FIRST_CHANNELS_FIRST => channels_first counts
  end.

(** [l[i] = x] for a Python list. *)
Definition setitem {A} (l : list A) (i : Z) (x : A) : result (list A) :=
  let i' := if i <? 0 then i + zlen l else i in
  if (i' <? 0) || (zlen l <=? i') then Err IndexError
  else Ok (ztake i' l ++ x :: zdrop (i' + 1) l).

Section Merge.
Context {A R : Type}.
Variable O : ops A.
Variable junk : Z -> Z -> A.

(** The loop body _merge.py:79-84; the state is the array and the list of labels. *)
Definition merge_signal_step (merged_offset : Z) (st : arr A * list string) (item : Z * (list A * (Z * string)))
  : result (arr A * list string) :=
  let '(m, labels) := st in
  let '(index, (channel, (offset, label))) := item in
  let start := offset - merged_offset in
  let stop := start + zlen channel in
  m <- set_row_block m index (between 0 start) (scalar (o_zero O)) ;;
  m <- set_row_block m index (between start stop) (Arr [channel] (zlen channel)) ;;
  m <- set_row_block m index (from stop) (scalar (o_zero O)) ;;
  labels <- setitem labels index label ;;
  Ok (m, labels).

(** _merge.py:57-88 for signals. *)
Definition merge_signals (mode : merge_mode) (data : list (signal A)) : result (signal A) :=
  match data with
  | [] => Err RuntimeError
  | [s] => Ok s
  | first :: _ =>
      let number_of_channels := zsum (map count data) in
      let merged_offset := zminimum (offset first) (map offset data) in
      let len := zmaximum (offset first + length first) (map (fun s => offset s + length s) data) - merged_offset in
      m <- allocate junk number_of_channels len ;;
      let items := combine (merge_indices mode (map count data))
                     (combine (flat_map (fun d => rows (channels d)) data)
                        (combine (flat_map (fun d => map (fun _ => offset d) (rows (channels d))) data)
                                 (flat_map labels data))) in
      st <- for_each items (merge_signal_step merged_offset) (m, zrepeat EmptyString number_of_channels) ;;
      Ok (mk_signal (fst st) (sampling_rate first) merged_offset (Some (snd st)))
  end.

(** The loop body _merge.py:95-97. *)
Definition merge_spectrum_step (st : arr A * list string) (item : Z * (list A * string))
  : result (arr A * list string) :=
  let '(m, labels) := st in
  let '(index, (channel, label)) := item in
  m <- set_row_block m index (between 0 (zlen channel)) (Arr [channel] (zlen channel)) ;;
  m <- set_row_block m index (from (zlen channel)) (scalar (o_zero O)) ;;
  labels <- setitem labels index label ;;
  Ok (m, labels).

(** _merge.py:63-70 and 89-100 for spectrums. *)
Definition merge_spectrums (mode : merge_mode) (data : list (spectrum A R)) : result (spectrum A R) :=
  match data with
  | [] => Err RuntimeError
  | [s] => Ok s
  | first :: _ =>
      let number_of_channels := zsum (map sp_count data) in
      let len := zmaximum (sp_length first) (map sp_length data) in
      m <- allocate junk number_of_channels len ;;
      let items := combine (merge_indices mode (map sp_count data))
                     (combine (flat_map (fun d => rows (sp_channels d)) data) (flat_map sp_labels data)) in
      st <- for_each items merge_spectrum_step (m, zrepeat EmptyString number_of_channels) ;;
      Ok (mk_spectrum (fst st) (resolution first) (Some (snd st)))
  end.

End Merge.

(** connectors.MultiInputData, as used by _merge.py:52-54 and 133-167: a dictionary that keeps
    the order of insertion (library code outside of /repo). *)
Definition multi (D : Type) : Type := list (Z * D).

(** The attributes of a Merge instance: _merge.py:52-55. *)
Record merger (D : Type) := Merger { mg_data : multi D; mg_mode : merge_mode }.
Arguments Merger {D}. Arguments mg_data {D}. Arguments mg_mode {D}.

Section Multi.
Context {D : Type}.

Definition multi_ids (m : multi D) : list Z := map fst m.
Definition multi_values (m : multi D) : list D := map snd m.

(** [self.__data.add(data)]: _merge.py:134-144; [i] is the identifier, which the library chooses and
    returns; that it is not in use is part of Spec/MergeSpec.v, [sensible]. *)
Definition multi_add (m : multi D) (i : Z) (d : D) : multi D := m ++ [(i, d)].

(** [del self.__data[data_id]]: _merge.py:147-155. *)
Fixpoint multi_remove (m : multi D) (i : Z) : result (multi D) :=
  match m with
  | [] => Err KeyError
  | (k, d) :: t => if k =? i then Ok t else r <- multi_remove t i ;; Ok ((k, d) :: r)
  end.

(** [self.__data[data_id] = data]: _merge.py:158-167; an unknown identifier is appended. *)
Fixpoint multi_replace (m : multi D) (i : Z) (x : D) : multi D :=
  match m with
  | [] => [(i, x)]
  | (k, d) :: t => if k =? i then (k, x) :: t else (k, d) :: multi_replace t i x
  end.

(** A call of one of the methods; [Add] is annotated with the identifier that it returned. *)
Inductive call := Add (i : Z) (d : D) | Remove (i : Z) | Replace (i : Z) (d : D) | SetMode (mode : merge_mode).

(** The state after a call: _merge.py:134-177. *)
Definition perform (m : merger D) (c : call) : result (merger D) :=
  match c with
  | Add i d => Ok (Merger (multi_add (mg_data m) i d) (mg_mode m))
  | Remove i => r <- multi_remove (mg_data m) i ;; Ok (Merger r (mg_mode m))
  | Replace i d => Ok (Merger (multi_replace (mg_data m) i d) (mg_mode m))
  | SetMode mode => Ok (Merger (mg_data m) mode)
  end.

(** A program that makes calls and catches the exceptions; a call that raises leaves the state as it was. *)
Fixpoint run (m : merger D) (h : list call) : merger D :=
  match h with
  | [] => m
  | c :: t => run (match perform m c with Ok m' => m' | Err _ => m end) t
  end.

End Multi.
Arguments call D : clear implicits.

(** The method output: _merge.py:57-131, for signals and for spectrums. *)
Definition merge_output_signals {A} (O : ops A) junk (m : merger (signal A)) : result (signal A) :=
  merge_signals O junk (mg_mode m) (multi_values (mg_data m)).
Definition merge_output_spectrums {A R} (O : ops A) junk (m : merger (spectrum A R)) : result (spectrum A R) :=
  merge_spectrums O junk (mg_mode m) (multi_values (mg_data m)).
