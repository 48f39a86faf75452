(** Specification of concatenation. *)

From Coq Require Import String ZArith List.
From Verif.Model Require Import Py Numpy Signal Concatenate.
From Verif.Spec Require Import TimeSpec.
Import ListNotations.
Open Scope Z_scope.

(** The data sets with the times, at which they begin: each one begins [offset] samples after the end of
    its predecessor, the first one [offset] samples after the time zero. *)
Fixpoint placed {D} (offset length : D -> Z) (end_of_previous : Z) (data : list D) : list (Z * D) :=
  match data with
  | [] => []
  | s :: t => (end_of_previous + offset s, s) :: placed offset length (end_of_previous + offset s + length s) t
  end.

Section Concat.
Context {A : Type}.
Variable O : ops A.

(** What a placed signal contributes to channel [c] at time [t]. *)
Definition contribution (c t : Z) (p : Z * signal A) : A :=
  match at_time (snd p) c (t - fst p + begins (snd p)) with Some x => x | None => o_zero O end.

Definition sum (l : list A) : A := fold_right (o_add O) (o_zero O) l.

(** The laws of exact addition. *)
Definition exact_addition : Prop :=
  (forall x, o_add O (o_zero O) x = x) /\ (forall x y, o_add O x y = o_add O y x) /\
  (forall x y z, o_add O x (o_add O y z) = o_add O (o_add O x y) z).

(** What concatenating has to return. *)
Definition concatenated (data : list (signal A)) (r : signal A) : Prop :=
  wf_signal r /\ (exists first, zth data 0 = Some first /\ sampling_rate r = sampling_rate first) /\
  (forall c, 0 <= c < count r -> zth (labels r) c = Some (String.append "Concatenation " (decimal (c + 1)))) /\
  (forall d, In d data -> count d <= count r) /\ (exists d, In d data /\ count d = count r) /\
  (forall b d, In (b, d) (placed offset length 0 data) -> begins r <= b /\ b + length d <= ends r) /\
  (exists b d, In (b, d) (placed offset length 0 data) /\ begins r = b) /\
  (exists b d, In (b, d) (placed offset length 0 data) /\ ends r = b + length d) /\
  forall c t, 0 <= c < count r -> begins r <= t < ends r ->
    at_time r c t = Some (sum (map (contribution c t) (placed offset length 0 data))).

End Concat.
