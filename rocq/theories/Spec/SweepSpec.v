(** Specification vocabulary for sweeps and waves. *)

From Coq Require Import String ZArith List Bool Reals.
From Verif.Model Require Import Py Numpy Functions Signal Sweeps.
From Verif.Spec Require Import TimeSpec RealSpec.
Import ListNotations.
Open Scope Z_scope.

(** Exact real numbers *)
Definition R_leb (x y : R) : bool := if Rle_dec x y then true else false.
Definition real_functions : functions R :=
  Functions IZR PI sin exp (fun x => exp x - 1)%R ln Int_part (fun x => - Int_part (- x)) R_leb.

(** The frequency at the time [t] (in seconds) of a sweep, that has the frequency [f0] at the sample [a] and [f1] at the sample [b] *)
Definition linear_frequency (f0 f1 : R) (a b : Z) (rate t : R) : R := (f0 + (f1 - f0) * ((t * rate - IZR a) / IZR (b - a)))%R.
Definition exponential_frequency (f0 f1 : R) (a b : Z) (rate t : R) : R := (f0 * Rpower (f1 / f0) ((t * rate - IZR a) / IZR (b - a)))%R.

(** [phi] is the angle of a sine, whose frequency at the time [t] is [f t] and which has the angle [phase] at the time [t0]. *)
Definition angle_of (f phi : R -> R) (t0 phase : R) : Prop :=
  phi t0 = phase /\ forall t, derivable_pt_lim phi t (2 * PI * f t)%R.

(** What all sweeps have in common: a channel with the given sampling rate and times; [f t] is the frequency at the time [t], its minimum and
    maximum are reported and determine the label *)
Definition sweep_frame (r : sweep) (rate : R) (first length : Z) (f : R -> R) : Prop :=
  let s := sw_signal r in
  wf_signal s /\ count s = 1 /\ sampling_rate s = rate /\ begins s = first /\ ends s = first + length /\
  (forall t, sw_function r t = Ok (f t)) /\
  (forall t, 0 <= t <= IZR length / rate -> sw_minimum r <= f t <= sw_maximum r)%R /\
  (exists t, 0 <= t <= IZR length / rate /\ f t = sw_minimum r)%R /\ (exists t, 0 <= t <= IZR length / rate /\ f t = sw_maximum r)%R /\
  ((f 0 <= f (IZR length / rate) -> labels s = ["Sweep"%string]) /\ (f (IZR length / rate) < f 0 -> labels s = ["Inverse sweep"%string]))%R.

(** A sine with the angle [phi] *)
Definition is_sweep (r : sweep) (rate : R) (length : Z) (f phi : R -> R) : Prop :=
  sweep_frame r rate 0 length f /\
  forall n, 0 <= n < length -> at_time (sw_signal r) 0 n = Some (sin (phi (IZR n / rate)%R)).

(** A sine, that runs backwards through the angle [phi]: the time [-n] of the inverse sweep corresponds to the time [n] of the sweep *)
Definition is_inverse_sweep (r : sweep) (rate : R) (a b length : Z) (f phi scale : R -> R) : Prop :=
  sweep_frame r rate (- (a + b)) length (fun t => f (IZR (a + b) / rate - t)%R) /\
  forall n, a + b - length < n <= a + b ->
    at_time (sw_signal r) 0 (- n) = Some (scale (IZR n / rate) * sin (phi (IZR n / rate)))%R.

(** ** Stationary waves and constants *)

(** A channel with the function [f] of the time in seconds, that contains [frequency * duration] periods *)
Definition is_wave (r : wave) (label : string) (frequency rate : R) (length : Z) (f : R -> R) : Prop :=
  let s := w_signal r in
  wf_signal s /\ count s = 1 /\ sampling_rate s = rate /\ begins s = 0 /\ ends s = length /\ labels s = [label] /\
  (w_periods r = frequency * (IZR length / rate))%R /\
  forall n, 0 <= n < length -> at_time s 0 n = Some (f (IZR n / rate)%R).

(** Half of the time plus one and half of the time minus one *)
Definition square (x : R) : R := if Rlt_dec 0 (sin x) then 1%R else if Rlt_dec (sin x) 0 then (-1)%R else 0%R.
