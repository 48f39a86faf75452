(** Specification vocabulary for time dependent levels and statistical parameters. *)

From Coq Require Import String ZArith List Bool Reals.
From Verif.Model Require Import Py Numpy Signal.
From Verif.Spec Require Import TimeSpec FourierSpec.
Import ListNotations.
Open Scope Z_scope.

(** A sample at the time [d] stands for the time span from [d - 1/2] to [d + 1/2].  The length of that part of it, that is within the
    integration interval from [- w / 2] to [w / 2] (in sampling periods) *)
Definition coverage (w : R) (d : Z) : R := Rmax 0 (Rmin (IZR d + 1 / 2) (w / 2) - Rmax (IZR d - 1 / 2) (- (w / 2)))%R.

(** The integral of the squared samples over the integration interval around the time [t]; the signal is zero, where it has no samples *)
Definition integral_of_squares (s : signal R) (w : R) (c t : Z) : R :=
  sum_over_time s (fun tau => (sample s c tau * sample s c tau * coverage w (tau - t))%R).
(** The length of that part of the integration interval around the time [t], that is covered by the signal *)
Definition covered_time (s : signal R) (w : R) (t : Z) : R := sum_over_time s (fun tau => coverage w (tau - t)).

(** The square of the level at the time [t]: the mean over the integration interval, that has the length [w], or over that part of it, that is
    covered by the signal *)
Definition squared_level (s : signal R) (w : R) (pad : bool) (c t : Z) : R :=
  (integral_of_squares s w c t / if pad then w else covered_time s w t)%R.

(** [r] has the same times, channels and labels as [s] *)
Definition same_frame {A} (r s : signal A) : Prop :=
  wf_signal r /\ count r = count s /\ begins r = begins s /\ ends r = ends s /\ sampling_rate r = sampling_rate s /\ labels r = labels s.

(** [r] is the level of [s] for each point in time *)
Definition is_level_vs_time (r s : signal R) (w : R) (pad : bool) : Prop :=
  same_frame r s /\
  forall c t, 0 <= c < count s -> begins s <= t < ends s -> at_time r c t = Some (sqrt (squared_level s w pad c t)).

(** ** Statistical parameters *)

(** The mean of [f x] for all samples [x] of a channel and of all channels *)
Definition mean_over_time (s : signal R) (c : Z) (f : R -> R) : R := (sum_over_time s (fun t => f (sample s c t)) / IZR (length s))%R.
Definition mean_over_channels (s : signal R) (g : Z -> R) : R := (fold_right (fun c a => g c + a)%R 0%R (zseq 0 (count s)) / IZR (count s))%R.

(** The mean of a function of the deviations of a channel's samples from their mean: [central_mean s c (fun d => d * d)] is the variance. *)
Definition central_mean (s : signal R) (c : Z) (f : R -> R) : R :=
  let mean := mean_over_time s c (fun x => x) in mean_over_time s c (fun x => f (x - mean)%R).

(** The list has a value for each of the [n] channels *)
Definition values_are (l : list R) (n : Z) (f : Z -> R) : Prop := zlen l = n /\ forall c, 0 <= c < n -> zth l c = Some (f c).

(** The samples of [r] are those of [s] after a multiplication with [a] and an addition of [b]. *)
Definition affine_image (r s : signal R) (a b : R) : Prop :=
  wf_signal r /\ count r = count s /\ begins r = begins s /\ ends r = ends s /\
  forall c t, 0 <= c < count s -> begins s <= t < ends s -> at_time r c t = option_map (fun x => a * x + b)%R (at_time s c t).
