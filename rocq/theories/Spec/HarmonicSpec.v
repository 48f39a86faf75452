(** Specification vocabulary for the impulse responses of harmonics. *)

From Coq Require Import String ZArith List Bool Reals.
From Verif.Model Require Import Py Numpy Signal Sweeps.
From Verif.Spec Require Import TimeSpec ComplexSpec DftSpec FourierSpec.
Import ListNotations.
Open Scope Z_scope.

(** The term number [k] of the discrete Fourier transform of the samples [x 0], ..., [x (n - 1)] *)
Definition dft_of (n : Z) (x : Z -> R) (k : Z) : C := Csum n (fun m => Cmul (C_of_R (x m)) (root n (- (m * k)))).

(** The samples [y] are the samples [x], which have been advanced circularly by [d] sampling intervals: the terms below the Nyquist frequency
    are rotated accordingly and the real term at the Nyquist frequency is the real part of the rotated term.  [d] needs not be an integer. *)
Definition advanced (n : Z) (d : R) (x y : Z -> R) : Prop :=
  forall k, 0 <= k ->
    (2 * k < n -> dft_of n y k = Cmul (cis (2 * PI * IZR k * d / IZR n)) (dft_of n x k)) /\
    (2 * k = n -> dft_of n y k = Cmul (C_of_R (cos (PI * d))) (dft_of n x k)).

(** [x] is rounded up to [s] and [y] is rounded down to [e]. *)
Definition rounded_up (x : R) (s : Z) : Prop := (IZR s - 1 < x <= IZR s)%R.
Definition rounded_down (y : R) (e : Z) : Prop := (IZR e <= y < IZR e + 1)%R.

(** How many sampling intervals a sequence of [n] samples is advanced in order to compensate for the rest [d]: the code is right for even [n] only. *)
Definition advance (n : Z) (d : R) : R := if Z.even n then d else (d * (IZR n / IZR (n - 1)))%R.

(** What is common to all harmonics *)
Definition harmonic_frame (ir r : signal R) (ordinal : string) (length' : Z) : Prop :=
  wf_signal r /\ count r = count ir /\ sampling_rate r = sampling_rate ir /\ begins r = 0 /\ ends r = length' /\
  labels r = map (fun l => String.append l (String.append " (" (String.append ordinal " harmonic)"))) (labels ir).

(** The times [- s], ..., [- e - 1] lie in the impulse response or they do so, when the impulse response is continued periodically by one period. *)
Definition fits (ir : signal R) (s e : Z) : Prop :=
  begins ir <= - s /\ - e <= ends ir \/ begins ir - length ir <= - s /\ - e <= begins ir.
