(** The part of NumPy that /repo/sumpf uses to convolve, correlate and transform sequences:
    [numpy.convolve], [numpy.correlate], [numpy.fft.rfft], [numpy.fft.irfft].  Not code of /repo.

    Simplifications: samples are exact (there is no rounding) and real, so that [numpy.correlate]
    does not have to conjugate its second argument. *)

From Coq Require Import ZArith List Bool.
From Verif.Model Require Import Py Numpy Signal.
Import ListNotations.
Open Scope Z_scope.

(** The [mode] argument of [numpy.convolve] and [numpy.correlate]. *)
Inductive numpy_mode := Full | Same | Valid.

Section Convolve.
Context {A : Type}.
Variable O : ops A.

(** The sum of [f i] for each [i] in the list. *)
Definition sum_over {I} (l : list I) (f : I -> A) : A := fold_right (fun i s => o_add O (f i) s) (o_zero O) l.

(** The inner product of [short] with the part of [long] that begins at the index [d]; both are cut to where they overlap. *)
Definition overlap_product (long short : list A) (d : Z) : A :=
  sum_over (zseq 0 (zlen short))
           (fun k => match zth long (d + k), zth short k with Some x, Some y => o_mul O x y | _, _ => o_zero O end).

(** numpy/core/src/multiarray/multiarraymodule.c, [_pyarray_correlate] for two arrays, of which the first is not the shorter one. *)
Definition correlate_ (long short : list A) (mode : numpy_mode) : list A :=
  let n1 := zlen long in
  let n2 := zlen short in
  let '(n_left, len) := match mode with
                        | Full => (n2 - 1, n1 + n2 - 1)
                        | Same => (n2 / 2, n1)
                        | Valid => (0, n1 - n2 + 1)
                        end in
  map (fun i => overlap_product long short (i - n_left)) (zseq 0 len).

(** [numpy.convolve(a, v, mode)] *)
Definition convolve (a v : list A) (mode : numpy_mode) : result (list A) :=
  let '(long, short) := if zlen a <? zlen v then (v, a) else (a, v) in
  if (zlen long =? 0) || (zlen short =? 0) then Err ValueError
  else Ok (correlate_ long (rev short) mode).

(** [numpy.correlate(a, v, mode)]; when the arguments have been swapped, the result is reversed. *)
Definition correlate (a v : list A) (mode : numpy_mode) : result (list A) :=
  if (zlen a =? 0) || (zlen v =? 0) then Err ValueError
  else if zlen a <? zlen v then Ok (rev (correlate_ v a mode))
  else Ok (correlate_ a v mode).

End Convolve.

(** The discrete Fourier transforms of one dimensional arrays with at least one element.
    [x_irfft y n] has [n] elements. *)
Record transforms (A K : Type) := Transforms {
  x_rfft : list A -> list K;         (* numpy.fft.rfft *)
  x_irfft : list K -> Z -> list A;   (* numpy.fft.irfft *)
  x_mul : K -> K -> K;               (* numpy.multiply *)
  x_conj : K -> K;                   (* numpy.conjugate *)
  x_inverse : K -> K;                (* 1.0 / x *)
}.
Arguments Transforms {A K}. Arguments x_rfft {A K}. Arguments x_irfft {A K}. Arguments x_mul {A K}. Arguments x_conj {A K}.
Arguments x_inverse {A K}.

Section Transform.
Context {A K : Type}.
Variable X : transforms A K.

(** [numpy.fft.rfft(m)] for a two dimensional array; a one dimensional one is an array with one row. *)
Definition rfft_rows (m : arr A) : result (arr K) :=
  if cols m <? 1 then Err ValueError else Ok (Arr (map (x_rfft X) (rows m)) (cols m / 2 + 1)).

(** [numpy.fft.irfft(m, n)] *)
Definition irfft_rows_n (m : arr K) (n : Z) : result (arr A) :=
  if n <? 1 then Err ValueError else Ok (Arr (map (fun r => x_irfft X r n) (rows m)) n).

(** [numpy.fft.irfft(m)] *)
Definition irfft_rows (m : arr K) : result (arr A) := irfft_rows_n m (2 * (cols m - 1)).

End Transform.
