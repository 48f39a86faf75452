(** Model of the Bartlett-Hann, Blackman-Harris, Bohman, Parzen and Kaiser windows
    (/repo/sumpf/_data/_signals/_windows_scipy.py:30-66, 357-367 and _windows.py:369-402).

    Floating point numbers are exact.  [int] is the conversion of an integer to a float, [pi] is the number that numpy.pi approximates, [cosine],
    [sine] and [root] are numpy.cos, numpy.sin and numpy.sqrt, [bessel] is numpy.i0.  The functions of SciPy and NumPy are modelled by what their
    documentation says.  Not modelled: the Dolph-Chebyshev and the Slepian window. *)

From Coq Require Import String ZArith List Bool.
From Verif.Model Require Import Py Numpy Vector Functions Signal Generators Windows CosineWindows.
Import ListNotations.
Open Scope string_scope.
Open Scope list_scope.
Open Scope Z_scope.

Section FurtherWindows.
Context {A : Type}.
Variable O : ops A.
Variable int : Z -> A.
Variable pi : A.
Variable cosine sine root bessel : A -> A.
Variable junk : Z -> A.

Notation "x +. y" := (o_add O x y) (at level 50, left associativity).
Notation "x -. y" := (o_sub O x y) (at level 50, left associativity).
Notation "x *. y" := (o_mul O x y) (at level 40, left associativity).
Notation "x /. y" := (o_div O x y) (at level 40, left associativity).

(** [scipy.signal.windows.barthann(M)].  Not code of /repo. *)
Definition barthann (M : Z) : list A :=
  scipy_window O (fun n =>
    let fac := o_abs O (int n /. int (M - 1) -. ratio O int 1 2) in
    ratio O int 62 100 -. ratio O int 48 100 *. fac +. ratio O int 38 100 *. cosine (int 2 *. pi *. fac)) M.

(** [scipy.signal.windows.blackmanharris(M)].  Not code of /repo. *)
Definition blackman_harris_coefficients : list (Z * Z) := [(35875, 100000); (48829, 100000); (14128, 100000); (1168, 100000)].
Definition blackmanharris (M : Z) : list A := general_cosine O int pi cosine blackman_harris_coefficients M.

(** [scipy.signal.windows.bohman(M)]: zeros at both ends, between them a function of [abs(linspace(-1, 1, M))].  Not code of /repo. *)
Definition bohman (M : Z) : list A :=
  scipy_window O (fun n =>
    if (n =? 0) || (n =? M - 1) then o_zero O
    else
      let fac := o_abs O (int (-1) +. int n *. (int 2 /. int (M - 1))) in
      (o_one O -. fac) *. cosine (pi *. fac) +. o_one O /. pi *. sine (pi *. fac)) M.

(** [scipy.signal.windows.parzen(M)]: with the distance [d] to the middle, [1 - 6 * (d / (M/2))**2 + 6 * (d / (M/2))**3] for [d <= (M-1)/4] and
    [2 * (1 - d / (M/2))**3] otherwise.  The comparison is one of integers here.  Not code of /repo. *)
Definition parzen (M : Z) : list A :=
  scipy_window O (fun n =>
    let x := o_abs O (int n -. ratio O int (M - 1) 2) /. ratio O int M 2 in
    if 2 * Z.abs (2 * n - (M - 1)) <=? M - 1 then o_one O -. int 6 *. (x *. x) +. int 6 *. (x *. x *. x)
    else int 2 *. ((o_one O -. x) *. (o_one O -. x) *. (o_one O -. x))) M.

(** [numpy.kaiser(M, beta)]: [i0(beta * sqrt(1 - ((n - alpha) / alpha)**2)) / i0(beta)] with [alpha = (M - 1) / 2]; one for the length one.  Not code of /repo. *)
Definition kaiser (beta : A) (M : Z) : list A :=
  if M =? 1 then [o_one O]
  else
    map (fun n =>
      let alpha := ratio O int (M - 1) 2 in
      let d := (int n -. alpha) /. alpha in
      bessel (beta *. root (o_one O -. d *. d)) /. bessel beta) (zseq 0 M).

Inductive further_window := BartlettHann | BlackmanHarris | Bohman | Parzen | Kaiser (beta : A).

(** The methods [_function]: _windows_scipy.py:35-36, 49-50, 62-63, 363-364, _windows.py:398-399 *)
Definition further_window_function (c : further_window) (length : Z) : list A :=
  match c with
  | BartlettHann => barthann length
  | BlackmanHarris => blackmanharris length
  | Bohman => bohman length
  | Parzen => parzen length
  | Kaiser beta => kaiser beta length
  end.

(** The methods [_label]: _windows_scipy.py:38-39, 52-53, 65-66, 366-367, _windows.py:401-402 *)
Definition further_window_label (c : further_window) : string :=
  match c with
  | BartlettHann => "Bartlett-Hann window" | BlackmanHarris => "Blackman-Harris window" | Bohman => "Bohman window" | Parzen => "Parzen window"
  | Kaiser _ => "Kaiser window"
  end.

(** The constructors: _windows.py:33-77, 379-396 *)
Definition make_further_window (c : further_window) (rate : A) (plateau : num) (length : Z) (symmetric : bool) : result (signal A) :=
  window O junk rate (further_window_function c) (further_window_label c) plateau length symmetric.

End FurtherWindows.
Arguments further_window : clear implicits. Arguments BartlettHann {A}. Arguments BlackmanHarris {A}. Arguments Bohman {A}. Arguments Parzen {A}. Arguments Kaiser {A}.
