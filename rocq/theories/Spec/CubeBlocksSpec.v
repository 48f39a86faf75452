(** What merging and concatenating spectrograms and merging filters have to return. *)

From Coq Require Import String ZArith List.
From Verif.Model Require Import Py Numpy Signal Cube Spectrogram Merge Concatenate Filter.
From Verif.Spec Require Import TimeSpec SpectrogramSpec MergeSpec ConcatSpec.
Import ListNotations.
Open Scope Z_scope.

Section Spectrograms.
Context {A R : Type}.
Variable O : ops A.

Definition merged_spectrogram (mode : merge_mode) (data : list (spectrogram A R)) (r : spectrogram A R) : Prop :=
  wf_spectrogram r /\
  (exists first, zth data 0 = Some first /\ sg_rate r = sg_rate first /\ sg_resolution r = sg_resolution first) /\
  (forall d, In d data -> sg_begins r <= sg_begins d /\ sg_ends d <= sg_ends r /\ sg_frequencies d <= sg_frequencies r) /\
  (exists d, In d data /\ sg_begins d = sg_begins r) /\ (exists d, In d data /\ sg_ends d = sg_ends r) /\
  (exists d, In d data /\ sg_frequencies d = sg_frequencies r) /\
  exists order, arrangement mode (map sg_count data) order /\ sg_count r = zlen order /\
    forall k o i d, zth order k = Some (o, i) -> zth data o = Some d ->
      zth (sg_labels r) k = zth (sg_labels d) i /\
      forall f t, 0 <= f < sg_frequencies r -> sg_begins r <= t < sg_ends r ->
        sg_at r k f t = Some (match sg_at d i f t with Some x => x | None => o_zero O end).

(** What a placed spectrogram contributes to the frequency bin [f] of channel [c] at time [t]. *)
Definition sg_contribution (c f t : Z) (p : Z * spectrogram A R) : A :=
  match sg_at (snd p) c f (t - fst p + sg_begins (snd p)) with Some x => x | None => o_zero O end.

Definition concatenated_spectrogram (data : list (spectrogram A R)) (r : spectrogram A R) : Prop :=
  let places := placed sg_offset sg_length 0 data in
  wf_spectrogram r /\
  (exists first, zth data 0 = Some first /\ sg_rate r = sg_rate first /\ sg_resolution r = sg_resolution first) /\
  (forall c, 0 <= c < sg_count r -> zth (sg_labels r) c = Some (String.append "Concatenation " (decimal (c + 1)))) /\
  (forall d, In d data -> sg_count d <= sg_count r /\ sg_frequencies d <= sg_frequencies r) /\
  (exists d, In d data /\ sg_count d = sg_count r) /\ (exists d, In d data /\ sg_frequencies d = sg_frequencies r) /\
  (forall b d, In (b, d) places -> sg_begins r <= b /\ b + sg_length d <= sg_ends r) /\
  (exists b d, In (b, d) places /\ sg_begins r = b) /\ (exists b d, In (b, d) places /\ sg_ends r = b + sg_length d) /\
  forall c f t, 0 <= c < sg_count r -> 0 <= f < sg_frequencies r -> sg_begins r <= t < sg_ends r ->
    sg_at r c f t = Some (sum O (map (sg_contribution c f t) places)).

End Spectrograms.

Definition merged_filter {K X} (mode : merge_mode) (data : list (filter K X)) (r : filter K X) : Prop :=
  zlen (f_labels r) = f_count r /\
  exists order, arrangement mode (map f_count data) order /\ f_count r = zlen order /\
    forall k o i d, zth order k = Some (o, i) -> zth data o = Some d ->
      zth (f_labels r) k = zth (f_labels d) i /\ zth (transfer_functions r) k = zth (transfer_functions d) i.
