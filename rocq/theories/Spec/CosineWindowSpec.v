(** Specification vocabulary for the windows that are sums of cosines, the Gaussian and the exponential window: their shapes and what the
    documentation says about them. *)

From Coq Require Import String ZArith List Bool Reals.
From Verif.Model Require Import Py Numpy Functions Signal Windows CosineWindows.
From Verif.Spec Require Import TimeSpec RealSpec BlockSpec DftSpec.
Import ListNotations.
Open Scope Z_scope.

(** The windows for exact real numbers *)
Notation real_cosine_window power modulo := (make_cosine_window (real_ops power modulo) IZR PI cos exp (ln 10)).

(** ** Shapes.  The position [u] is -1/2 at the beginning, 0 in the middle and 1/2 at the end of the window. *)

(** The sum of [a_k * cos(2 * pi * k * u)] *)
Definition sum_of_cosines (a : list R) (u : R) : R := Rsum_list (zseq 0 (zlen a)) (fun k => at_R a k * cos (2 * PI * IZR k * u))%R.

Definition rational (q : Z * Z) : R := (IZR (fst q) / IZR (snd q))%R.

(** The weights of the cosines *)
Definition weights (c : cosine_window R) : list R :=
  match c with
  | FlatTop f => map (fun q => match flat_top_divisor f with Some d => rational q / rational d | None => rational q end)%R (flat_top_coefficients f)
  | Nuttall f => map rational (nuttall_coefficients f)
  | _ => []
  end.

(** The Gaussian window is a Gaussian function, whose standard deviation is a factor of half the length of the window.
    The level of the exponential window falls linearly to [- decay] decibels at its ends. *)
Definition cosine_shape (c : cosine_window R) (u : R) : R :=
  match c with
  | FlatTop _ | Nuttall _ => sum_of_cosines (weights c) u
  | Gaussian standard_deviation => exp (- (u / (standard_deviation / 2)) ^ 2 / 2)
  | Exponential decay => Rpower 10 (- decay * Rabs (2 * u) / 20)
  end%R.

(** The windows that are sums of cosines *)
Definition cosine_sum (c : cosine_window R) : Prop := match c with FlatTop _ | Nuttall _ => True | _ => False end.

(** The standard deviation must not be zero. *)
Definition sensible_window (c : cosine_window R) : Prop := match c with Gaussian standard_deviation => standard_deviation <> 0%R | _ => True end.

(** ** The documentation of the enumerations (_enums.py:88-118, 144-178) *)

(** The number of terms of the sum *)
Definition documented_terms (c : cosine_window R) : option Z :=
  match c with
  | FlatTop f =>
      match f with
      | SFT3F | SFT3M => Some 3 | SFT4F | SFT4M | HFT70 => Some 4 | SFT5F | SFT5M | HFT90D | HFT95 => Some 5 | HFT116D => Some 6 | HFT144D => Some 7
      | HFT169D => Some 8 | HFT196D => Some 9 | HFT223D => Some 10 | HFT248D => Some 11 | FTNI | FTHP | FTSRS => None
      end
  | Nuttall f => match f with NUTTALL3 | NUTTALL3A | NUTTALL3B => Some 3 | _ => Some 4 end
  | _ => None
  end.

(** The decay of the side lobes in decibels per octave *)
Definition documented_decay (c : cosine_window R) : option Z :=
  match c with
  | FlatTop f => match f with HFT90D | HFT116D | HFT144D | HFT169D | HFT196D | HFT223D | HFT248D => Some 18 | _ => None end
  | Nuttall f =>
      match f with NUTTALL3 => Some 30 | NUTTALL3A => Some 18 | NUTTALL3B => Some 6 | NUTTALL4 => Some 42 | NUTTALL4A => Some 30 | NUTTALL4B => Some 18 | NUTTALL4C => Some 6 end
  | _ => None
  end.

(** ** Side lobes *)

(** [v] is the integral of [g] from [a] to [b]. *)
Definition is_integral (g : R -> R) (a b v : R) : Prop := exists G : R -> R, (forall x, derivable_pt_lim G x (g x)) /\ v = (G b - G a)%R.

(** [f x] converges to [y] for large [x]. *)
Definition tends_to (f : R -> R) (y : R) : Prop := forall eps, (0 < eps)%R -> exists N, forall x, (N < x)%R -> (Rabs (f x - y) < eps)%R.

(** The value [v] of the Fourier transform of a window with the given shape and the length 1 at the frequency [nu].  The shapes are even
    functions, so that the transform is real. *)
Definition transform_at (shape : R -> R) (nu v : R) : Prop := is_integral (fun u => shape u * cos (2 * PI * nu * u))%R (-(1/2)) (1/2) v.

(** The side lobes of the Fourier transform are those of a sine that is zero at the integer frequencies, with the envelope [E].  For high
    frequencies, the envelope is proportional to [1 / nu ^ p]: each doubling of the frequency divides it by [2 ^ p], which are
    [20 * p * log10(2)], about [6 * p], decibels. *)
Definition decays (shape : R -> R) (p : nat) : Prop := exists (E : R -> R) N L, L <> 0%R /\
  (forall nu, (N < nu)%R -> transform_at shape nu (sin (PI * nu) * E nu)) /\ tends_to (fun nu => nu ^ p * E nu)%R L.
