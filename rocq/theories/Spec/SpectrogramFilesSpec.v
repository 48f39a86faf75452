(** What a spectrogram is, that has been read from a file. *)

From Coq Require Import String Ascii ZArith QArith List Bool.
From Verif.Model Require Import Py Cube Spectrogram SpectrogramFiles.
Import ListNotations.
Open Scope Z_scope.

(** The same shape, the same samples, the same parameters and the same labels *)
Definition same_spectrogram {K} (s t : spectrogram K Q) : Prop :=
  (sg_count t = sg_count s /\ sg_frequencies t = sg_frequencies s /\ sg_length t = sg_length s) /\
  (forall c f n, cell (sg_channels t) c f n = cell (sg_channels s) c f n) /\
  sg_resolution t = sg_resolution s /\ sg_rate t = sg_rate s /\ sg_offset t = sg_offset s /\ sg_labels t = sg_labels s.

(** A list of [bins] lists with [samples] numbers each *)
Definition rectangle {T} (bins samples : Z) (l : list (list T)) : Prop :=
  zlen l = bins /\ forall f r, zth l f = Some r -> zlen r = samples.

(** The number at the index [n] of the list at the index [f] *)
Definition entry {T} (l : list (list T)) (f n : Z) : option T := match zth l f with Some r => zth r n | None => None end.

Definition or_default {X} (x : option X) (default : X) : X := match x with Some y => y | None => default end.

(** The label at the index [c] is the one in the file, if there is one, and empty otherwise. *)
Definition label_from (labels : option (list string)) (c : Z) : string :=
  match zth (or_default labels []) c with Some l => l | None => EmptyString end.

(** The spectrogram [s] has been read from the dictionary [d]. *)
Definition describes_dictionary {T K} (d : spectrogram_dictionary (T := T)) (make : T -> T -> K) (s : spectrogram K Q) : Prop :=
  (forall c l l' f n x y, zth (or_default (sj_channels d) []) c = Some (l, l') -> entry l f n = Some x -> entry l' f n = Some y ->
     cell (sg_channels s) c f n = Some (make x y)) /\
  sg_resolution s = or_default (sj_resolution d) 1%Q /\ sg_rate s = or_default (sj_rate d) 48000%Q /\
  sg_offset s = or_default (sj_offset d) 0 /\
  zlen (sg_labels s) = sg_count s /\ (forall c, 0 <= c < sg_count s -> zth (sg_labels s) c = Some (label_from (sj_labels d) c)).

(** The last character of a string is not the NUL character. *)
Definition no_nul_at_the_end (s : string) : Prop := forall t, s <> (t ++ String "000" EmptyString)%string.
