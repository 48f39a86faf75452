(** Which numbers an object contains, that is written as text. *)

From Coq Require Import String ZArith List Bool.
From Verif.Model Require Import Py Numpy Signal Spectrum Cube Spectrogram Terms Filter Bands.
From Verif.Spec Require Import TermsSpec.
Import ListNotations.
Open Scope Z_scope.

Section ReprSpec.
Context {K X : Type}.
(** The numbers, that are neither infinite nor not-a-number *)
Variable finite : K -> bool.
Variable finite_frequency : X -> bool.

Definition all_finite (l : list K) : Prop := forall x, In x l -> finite x = true.
Definition all_finite_frequencies (l : list X) : Prop := forall x, In x l -> finite_frequency x = true.

(** The numbers in a term (but not those in its parts) are finite. *)
Definition finite_term (t : term K X) : Prop :=
  match t with
  | Constant v => finite v = true
  | Polynomial c _ => all_finite c
  | Exp c _ => finite c = true
  | Terms.Bands xs ys _ _ => all_finite_frequencies xs /\ all_finite ys
  | _ => True
  end.
Definition finite_filter (F : filter K X) : Prop := Forall (every finite_term) (transfer_functions F).

(** The frequencies and the values of all bands are finite. *)
Definition finite_bands (b : list (list (X * K))) : Prop :=
  forall d f y, In d b -> In (f, y) d -> finite_frequency f = true /\ finite y = true.

Definition finite_array (m : arr K) : Prop := forall i k x, el m i k = Some x -> finite x = true.
Definition finite_cube (m : cube K) : Prop := forall i j k x, cell m i j k = Some x -> finite x = true.

End ReprSpec.

(** The same shape, the same values, the same parameters and the same labels *)
Definition equal_spectrogram {K X} (s t : spectrogram K X) : Prop :=
  (sg_count t = sg_count s /\ sg_frequencies t = sg_frequencies s /\ sg_length t = sg_length s) /\
  (forall c f n, cell (sg_channels t) c f n = cell (sg_channels s) c f n) /\
  sg_resolution t = sg_resolution s /\ sg_rate t = sg_rate s /\ sg_offset t = sg_offset s /\ sg_labels t = sg_labels s.

(** What the constructor of the terms establishes: the extrapolation with logarithmic steps is replaced by the one with linear steps. *)
Definition constructed {K X} (t : term K X) : Prop := match t with Terms.Bands _ _ _ e => e <> StairsLog | _ => True end.
