(** Specification vocabulary for JSON files. *)

From Coq Require Import String ZArith QArith List Bool.
From Verif.Model Require Import Py Numpy Signal Spectrum Cube Spectrogram Terms.
Import ListNotations.
Open Scope Z_scope.

(** All samples and the sampling rate, or the resolution, are floating point numbers. *)
Definition signal_floats (D : Q -> Prop) (s : signal Q) : Prop := Forall (Forall D) (rows (channels s)) /\ D (sampling_rate s).
Definition spectrum_floats (D : Q -> Prop) (s : spectrum (Q * Q) Q) : Prop :=
  Forall (Forall (fun z => D (fst z) /\ D (snd z))) (rows (sp_channels s)) /\ D (resolution s).
Definition spectrogram_floats {K} (D : Q -> Prop) (real imag : K -> Q) (s : spectrogram K Q) : Prop :=
  (forall i j k x, cell (sg_channels s) i j k = Some x -> D (real x) /\ D (imag x)) /\ D (sg_resolution s) /\ D (sg_rate s).

(** The numbers of a transfer function are real floating point numbers.  Only the values of [Bands] can be complex numbers, their parts are
    stored. *)
Section Filters.
Context {N K X : Type}.
Variable D : N -> Prop.
Variable float_of_number : K -> option N.
Variable float_of_frequency : X -> N.
Variable complex_array : list K -> bool.
Variables real imag : K -> K.

Definition real_float (x : K) : Prop := exists n, float_of_number x = Some n /\ D n.
Definition float_term (t : term K X) : Prop :=
  match t with
  | Constant v => real_float v
  | Polynomial c _ => Forall real_float c
  | Exp c _ => real_float c
  | Bands xs ys _ _ => Forall (fun x => D (float_of_frequency x)) xs /\
      Forall (fun y => if complex_array ys then real_float (real y) /\ real_float (imag y) else real_float y) ys
  | _ => True
  end.

(** A complex number as constant or as coefficient *)
Definition has_complex (t : term K X) : Prop :=
  match t with
  | Constant v => float_of_number v = None
  | Polynomial c _ => exists v, In v c /\ float_of_number v = None
  | Exp c _ => float_of_number c = None
  | _ => False
  end.
(** All numbers are floating point numbers or complex numbers, and so are all others in the term. *)
Definition number (x : K) : Prop := forall n, float_of_number x = Some n -> D n.
Definition number_term (t : term K X) : Prop :=
  match t with
  | Constant v => number v
  | Polynomial c _ => Forall number c
  | Exp c _ => number c
  | Bands xs ys _ _ => Forall (fun x => D (float_of_frequency x)) xs /\ Forall (fun y => number y /\ number (real y) /\ number (imag y)) ys
  | _ => True
  end.
End Filters.
