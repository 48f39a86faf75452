(** Specification vocabulary for windows: their shapes and how repetitions of a window overlap. *)

From Coq Require Import String ZArith List Bool Reals.
From Verif.Model Require Import Py Numpy Functions Signal Windows.
From Verif.Spec Require Import TimeSpec RealSpec BlockSpec.
Import ListNotations.
Open Scope Z_scope.

(** The window functions for exact real numbers *)
Definition less (x y : R) : bool := if Rlt_dec x y then true else false.
Notation real_window power modulo := (make_window (real_ops power modulo) IZR PI cos).
Notation real_get_window power modulo := (get_window (real_ops power modulo) IZR PI cos).

(** The textbook definitions: the position [x] is 0 at the beginning and 1 at the end of the window. *)
Definition shape (c : window_class) (x : R) : R :=
  match c with
  | RectangularWindow => 1
  | BartlettWindow => 1 - Rabs (2 * x - 1)
  | HannWindow => (1 - cos (2 * PI * x)) / 2
  | HammingWindow => 54/100 - 46/100 * cos (2 * PI * x)
  | BlackmanWindow => 42/100 - 50/100 * cos (2 * PI * x) + 8/100 * cos (4 * PI * x)
  end%R.

(** The sum of the values [x n] of repetitions of a window with the length [l], each of which is shifted by another multiple of [step],
    at the time [t] *)
Definition overlapped (x : Z -> R) (l step t : Z) : R := Rsum_list (zseq 0 l) (fun n => if (n - t) mod step =? 0 then x n else 0%R).

(** The ratio of the minimum and the maximum of a function of the time *)
Definition is_flatness (S : Z -> R) (f : R) : Prop := exists a b, f = (S a / S b)%R /\ forall t, (S a <= S t <= S b)%R.

(** How many repetitions of a window must overlap at each time, so that their sum is constant *)
Definition enough (c : window_class) (m : Z) : Prop :=
  match c with
  | RectangularWindow => 1 <= m
  | BartlettWindow => 2 <= m /\ m mod 2 = 0
  | HannWindow | HammingWindow => 2 <= m
  | BlackmanWindow => 3 <= m
  end.

(** The mean value of the shape *)
Definition mean_value (c : window_class) : R :=
  match c with RectangularWindow => 1 | BartlettWindow | HannWindow => 1/2 | HammingWindow => 54/100 | BlackmanWindow => 42/100 end%R.

(** The sum of [x n * x (n + step)] *)
Definition correlation (x : Z -> R) (l step : Z) : R := Rsum_list (zseq 0 l) (fun n => x n * x (n + step)%Z)%R.
