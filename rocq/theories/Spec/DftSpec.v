(** The discrete Fourier transform of real sequences as the documentation of numpy.fft defines it, in exact arithmetic. *)

From Coq Require Import ZArith List Bool Reals.
From Verif.Model Require Import Py Signal Fft.
From Verif.Spec Require Import ComplexSpec.
Import ListNotations.
Open Scope Z_scope.

(** The sum of complex numbers over the indices from 0 to [n - 1] *)
Definition Csum (n : Z) (f : Z -> C) : C := fold_right (fun k s => Cadd (f k) s) (C_of_R 0) (zseq 0 n).

(** Elements of sequences; the default value is never used within the length of the sequence. *)
Definition at_R (x : list R) (k : Z) : R := match zth x k with Some v => v | None => 0%R end.
Definition at_C (y : list C) (k : Z) : C := match zth y k with Some v => v | None => C_of_R 0 end.

(** [exp(2j * pi * e / n)] *)
Definition root (n e : Z) : C := cis (2 * PI * IZR e / IZR n).

(** [A_k], the sum over [m] of [a_m * exp(-2j * pi * m * k / n)] *)
Definition dft (x : list R) (k : Z) : C :=
  Csum (zlen x) (fun m => Cmul (C_of_R (at_R x m)) (root (zlen x) (- (m * k)))).

(** [numpy.fft.rfft]: the terms for [k] from 0 to [n // 2] *)
Definition rfft (x : list R) : list C := map (dft x) (zseq 0 (zlen x / 2 + 1)).

(** The term number [k] of the Hermitian-symmetric spectrum, of which [y] is the first half; the imaginary parts of the terms for
    the frequency zero and for the Nyquist frequency are ignored. *)
Definition hermitian (y : list C) (n k : Z) : C :=
  if k =? 0 then C_of_R (re (at_C y 0))
  else if 2 * k <? n then at_C y k
  else if 2 * k =? n then C_of_R (re (at_C y k))
  else Cconj (at_C y (n - k)).

(** [numpy.fft.irfft(y, n)]: [a_m = 1/n] times the sum over [k] of [A_k * exp(2j * pi * m * k / n)] *)
Definition irfft (y : list C) (n : Z) : list R :=
  map (fun m => (re (Csum n (fun k => Cmul (hermitian y n k) (root n (m * k)))) / IZR n)%R) (zseq 0 n).

Definition real_transforms : transforms R C := Transforms rfft irfft Cmul Cconj Cinv.
