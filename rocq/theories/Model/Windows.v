(** Model of the window functions that NumPy computes, of the measures of windows (/repo/sumpf/_data/_signals/_windows.py:125-274, 302-366)
    and of [get_window] (/repo/sumpf/_internal/_functions.py:46-81).

    Floating point numbers are exact.  [int] is the conversion of an integer to a float, [pi] is numpy.pi, [cosine] is numpy.cos and
    [less] is the comparison of two numbers.  [junk] and [mjunk] are the contents of freshly allocated memory.
    Not modelled here: the Kaiser window (see FurtherWindows.v), the windows of SciPy (see CosineWindows.v and FurtherWindows.v); not modelled: arrays of overlaps. *)

From Coq Require Import String ZArith QArith List Bool.
From Verif.Model Require Import Py Numpy Vector Functions Signal Fft Fourier Generators.
Import ListNotations.
Open Scope string_scope.
Open Scope list_scope.
Open Scope Z_scope.

Section Windows.
Context {A : Type}.
Variable O : ops A.
Variable int : Z -> A.
Variable pi : A.
Variable cosine : A -> A.
Variable less : A -> A -> bool.
Variable junk : Z -> A.

Definition ratio (a b : Z) : A := o_div O (int a) (int b).

(** ** The window functions of NumPy.  Not code of /repo: numpy/lib/function_base.py; [n] is an element of [arange(1 - M, M, 2)]. *)
Definition numpy_window (f : Z -> A) (M : Z) : list A :=
  if M <? 1 then [] else if M =? 1 then [o_one O] else map (fun k => f (1 - M + 2 * k)) (zseq 0 M).

(** [pi * n / (M - 1)] *)
Definition angle (M n : Z) : A := o_div O (o_mul O pi (int n)) (int (M - 1)).
(** [2.0 * pi * n / (M - 1)] *)
Definition double_angle (M n : Z) : A := o_div O (o_mul O (o_mul O (int 2) pi) (int n)) (int (M - 1)).

Definition hanning (M : Z) : list A := numpy_window (fun n => o_add O (ratio 1 2) (o_mul O (ratio 1 2) (cosine (angle M n)))) M.
Definition hamming (M : Z) : list A := numpy_window (fun n => o_add O (ratio 54 100) (o_mul O (ratio 46 100) (cosine (angle M n)))) M.
Definition blackman (M : Z) : list A :=
  numpy_window (fun n => o_add O (o_add O (ratio 42 100) (o_mul O (ratio 5 10) (cosine (angle M n)))) (o_mul O (ratio 8 100) (cosine (double_angle M n)))) M.
Definition bartlett (M : Z) : list A :=
  numpy_window (fun n => if n <=? 0 then o_add O (o_one O) (ratio n (M - 1)) else o_sub O (o_one O) (ratio n (M - 1))) M.
(** [numpy.ones(length)] *)
Definition ones (M : Z) : list A := zrepeat (o_one O) M.

(** ** The subclasses of [Window]: _windows.py:302-366 *)
Inductive window_class := RectangularWindow | BartlettWindow | HannWindow | HammingWindow | BlackmanWindow.
Definition window_function (c : window_class) : Z -> list A :=
  match c with RectangularWindow => ones | BartlettWindow => bartlett | HannWindow => hanning | HammingWindow => hamming | BlackmanWindow => blackman end.
Definition window_label (c : window_class) : string :=
  match c with
  | RectangularWindow => "Rectangular window" | BartlettWindow => "Bartlett window" | HannWindow => "Hann window"
  | HammingWindow => "Hamming window" | BlackmanWindow => "Blackman window"
  end.
Definition make_window (c : window_class) (rate : A) (plateau : num) (length : Z) (symmetric : bool) : result (signal A) :=
  window O junk rate (window_function c) (window_label c) plateau length symmetric.

(** ** get_window *)

(** What can be passed for a window: an integer, an array (or an iterable) with one or two dimensions, or anything else, that is assumed
    to be a signal *)
Inductive window_parameter := WLength (length : Z) | WVector (v : list A) | WMatrix (m : arr A) | WSignal (s : signal A).

(** [overlap == 0] *)
Definition is_zero (overlap : num) : bool := match overlap with NInt i => i =? 0 | NFloat q => Qeq_bool q 0 end.

(** _functions.py:46-81, [get_window(window, overlap, symmetric, sampling_rate)] *)
Definition get_window (w : window_parameter) (overlap : num) (symmetric : bool) (rate : A) : result (signal A) :=
  match w with
  | WLength length =>
      if is_zero overlap then make_window RectangularWindow rate (NInt 0) length symmetric
      else make_window HannWindow rate (NInt 0) length symmetric
  | WVector v => Ok (mk_signal (Arr [v] (zlen v)) rate 0 (Some ["Window"]))
  | WMatrix m => Ok (mk_signal m rate 0 (Some (zrepeat "Window" (nrows m))))
  | WSignal s => Ok s
  end.

(** ** Measures of a window.  The attributes are those of the signal; the first channel is the window. *)

(** [self._channels[0]], where a window always has a channel *)
Definition first_channel (w : signal A) : list A := match rows (channels w) with r :: _ => r | [] => [] end.

(** [min(v)] and [max(v)] for an array *)
Definition py_min (v : list A) : result A :=
  match v with [] => Err ValueError | x :: l => Ok (fold_left (fun m y => if less y m then y else m) l x) end.
Definition py_max (v : list A) : result A :=
  match v with [] => Err ValueError | x :: l => Ok (fold_left (fun m y => if less m y then y else m) l x) end.

(** [v[a:b] += w] *)
Definition vadd (v : list A) (b : bounds) (w : list A) : result (list A) :=
  s <- vmap2 (o_add O) (subseq b v) w ;; vset v b s.

(** _windows.py:169-190, [scaling_factor(overlap)] *)
Definition window_scaling_factor (w : signal A) (overlap : num) : result A :=
  let length := length w in
  let channel := first_channel w in
  overlap <- index overlap length ;;
  let step := length - overlap in
  if step =? 0 then Ok (o_zero O)
  else
    shifts <- range step length step ;;
    let added := fold_left (fun added shift =>
                   o_add O (o_add O added (channel_sum O (subseq (between 0 (length - shift)) channel)))
                           (channel_sum O (subseq (from shift) channel)))
                   shifts (channel_sum O channel) in
    Ok (o_div O (int length) added).

(** The array [overlapping] in _windows.py:214-219 and 245-249; [channel] is the (squared) window *)
Definition overlapping (channel : list A) (length step : Z) : result (list A) :=
  o <- vector junk length ;;
  o <- vset o everything channel ;;
  shifts <- range step length step ;;
  for_each shifts (fun o i =>
    o <- vadd o (between 0 (- i)) (subseq (from i) channel) ;;
    vadd o (from i) (subseq (between 0 (- i)) channel)) o.

(** The common part of _windows.py:192-222, [amplitude_flatness(overlap)], and _windows.py:224-250, [power_flatness(overlap)] *)
Definition flatness (channel : list A) (length : Z) (overlap : num) : result A :=
  overlap <- index overlap length ;;
  if overlap =? length then Ok (o_one O)
  else
    v <- (if overlap =? 0 then Ok channel else overlapping channel length (length - overlap)) ;;
    minimum <- py_min v ;;
    maximum <- py_max v ;;
    Ok (o_div O minimum maximum).
Definition amplitude_flatness (w : signal A) (overlap : num) : result A := flatness (first_channel w) (length w) overlap.
Definition power_flatness (w : signal A) (overlap : num) : result A :=
  flatness (map (fun x => o_mul O x x) (first_channel w)) (length w) overlap.

(** _windows.py:252-274, [overlap_correlation(overlap)] *)
Definition overlap_correlation (w : signal A) (overlap : num) : result A :=
  let length := length w in
  let channel := first_channel w in
  overlap <- index overlap length ;;
  products <- vmap2 (o_mul O) (subseq (between 0 overlap) channel) (subseq (from (length - overlap)) channel) ;;
  let numerator := channel_sum O products in
  let denominator := channel_sum O (map (fun x => o_mul O x x) channel) in
  if o_eqb O denominator (o_zero O) then Ok (o_one O) else Ok (o_div O numerator denominator).

End Windows.
