(** Specification of the order of merged channels, without reference to the index
    computations of the program.  A channel is named by the pair of the number of its
    data set and its number in this data set, both counted from zero. *)

From Coq Require Import ZArith List Sorting.Sorted.
From Verif.Model Require Import Py Numpy Signal Spectrum Merge.
From Verif.Spec Require Import TimeSpec FrequencySpec.
Open Scope Z_scope.

(** FIRST_DATASET_FIRST: all channels of the first data set, then all of the second...
    FIRST_CHANNELS_FIRST: the first channels of all data sets, then the second channels... *)
Definition before (mode : merge_mode) (a b : Z * Z) : Prop :=
  match mode with
  | FIRST_DATASET_FIRST => fst a < fst b \/ fst a = fst b /\ snd a < snd b
  | FIRST_CHANNELS_FIRST => snd a < snd b \/ snd a = snd b /\ fst a < fst b
  end.

(** [order] lists all channels of data sets with the given channel counts, each once, in the order of the mode. *)
Definition arrangement (mode : merge_mode) (counts : list Z) (order : list (Z * Z)) : Prop :=
  StronglySorted (before mode) order /\
  forall o i, In (o, i) order <-> exists n, zth counts o = Some n /\ 0 <= i < n.

Section Result.
Context {A R : Type}.
Variable O : ops A.

(** What merging signals has to return. *)
Definition merged_signal (mode : merge_mode) (data : list (signal A)) (r : signal A) : Prop :=
  wf_signal r /\
  (exists first, zth data 0 = Some first /\ sampling_rate r = sampling_rate first) /\
  (forall d, In d data -> begins r <= begins d /\ ends d <= ends r) /\
  (exists d, In d data /\ begins d = begins r) /\ (exists d, In d data /\ ends d = ends r) /\
  exists order, arrangement mode (map count data) order /\ count r = zlen order /\
    forall k o i d, zth order k = Some (o, i) -> zth data o = Some d ->
      zth (labels r) k = zth (labels d) i /\
      forall t, begins r <= t < ends r ->
        at_time r k t = Some (match at_time d i t with Some x => x | None => o_zero O end).

(** What merging spectrums has to return. *)
Definition merged_spectrum (mode : merge_mode) (data : list (spectrum A R)) (r : spectrum A R) : Prop :=
  wf_spectrum r /\
  (exists first, zth data 0 = Some first /\ resolution r = resolution first) /\
  (forall d, In d data -> sp_length d <= sp_length r) /\
  (exists d, In d data /\ sp_length d = sp_length r) /\
  exists order, arrangement mode (map sp_count data) order /\ sp_count r = zlen order /\
    forall k o i d, zth order k = Some (o, i) -> zth data o = Some d ->
      zth (sp_labels r) k = zth (sp_labels d) i /\
      forall f, 0 <= f < sp_length r ->
        bin r k f = Some (match bin d i f with Some x => x | None => o_zero O end).

End Result.

(** The contents of a Merge or Concatenate instance after a history of calls, read off the history:
    the data sets that have been added and not removed since, in the order of their addition,
    each with the value, by which it has been replaced last. *)
Section History.
Context {D : Type}.

Definition removes (i : Z) (c : call D) : bool := match c with Remove k => k =? i | _ => false end.

Fixpoint latest (i : Z) (d : D) (h : list (call D)) : D :=
  match h with
  | nil => d
  | cons (Replace k x) t => latest i (if k =? i then x else d) t
  | cons _ t => latest i d t
  end.

Fixpoint remaining (h : list (call D)) : list D :=
  match h with
  | nil => nil
  | cons (Add i d) t => if existsb (removes i) t then remaining t else cons (latest i d t) (remaining t)
  | cons _ t => remaining t
  end.

Fixpoint latest_mode (mode : merge_mode) (h : list (call D)) : merge_mode :=
  match h with
  | nil => mode
  | cons (SetMode m) t => latest_mode m t
  | cons _ t => latest_mode mode t
  end.

(** A history of calls, in which [add] returns unused identifiers, [remove] and [replace] are
    called with identifiers of present data sets; [present] are the identifiers before the history. *)
Fixpoint sensible (present : list Z) (h : list (call D)) : Prop :=
  match h with
  | nil => True
  | cons (Add i _) t => ~ In i present /\ sensible (cons i present) t
  | cons (Remove i) t => In i present /\ sensible (List.remove Z.eq_dec i present) t
  | cons (Replace i _) t => In i present /\ sensible present t
  | cons (SetMode _) t => sensible present t
  end.

End History.
