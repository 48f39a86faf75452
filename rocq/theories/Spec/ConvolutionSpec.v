(** Specification vocabulary for convolution and correlation: sums of products of samples at absolute times. *)

From Coq Require Import String ZArith List Bool Ring_theory.
From Verif.Model Require Import Py Numpy Signal.
From Verif.Spec Require Import TimeSpec.
Import ListNotations.
Open Scope Z_scope.

(** Exact samples *)
Definition commutative_ring {A} (O : ops A) : Prop :=
  ring_theory (o_zero O) (o_one O) (o_add O) (o_mul O) (o_sub O) (o_neg O) eq.

Section Sums.
Context {A : Type}.
Variable O : ops A.

(** [f lo + f (lo+1) + ... + f (hi-1)] *)
Definition sum_between (lo hi : Z) (f : Z -> A) : A :=
  fold_right (fun k s => o_add O (f k) s) (o_zero O) (zseq lo (hi - lo)).

(** The sample of the channel with which a signal takes part in channel number [c] of the result; zero, where the signal has no samples *)
Definition value_at (s : signal A) (c t : Z) : A :=
  match operand_at s c t with Some x => x | None => o_zero O end.

(** The convolution and the cross correlation of two signals at the time [t] *)
Definition convolution_at (a b : signal A) (c t : Z) : A :=
  sum_between (begins a) (ends a) (fun tau => o_mul O (value_at a c tau) (value_at b c (t - tau))).
Definition correlation_at (a b : signal A) (c t : Z) : A :=
  sum_between (begins a) (ends a) (fun tau => o_mul O (value_at a c tau) (value_at b c (tau + t))).

End Sums.

(** The number of channels that are combined: a signal with one channel is combined with each channel of the other one. *)
Definition paired_count {A} (a b : signal A) : Z :=
  if count a =? 1 then count b else if count b =? 1 then count a else Z.min (count a) (count b).

(** The signal has the samples [f c t] at the times from [lo] to [hi - 1] in [n] channels. *)
Definition samples_are {A} (r : signal A) (n lo hi : Z) (f : Z -> Z -> A) : Prop :=
  wf_signal r /\ count r = n /\ begins r = lo /\ ends r = hi /\
  forall c t, 0 <= c < n -> lo <= t < hi -> at_time r c t = Some (f c t).
