(** Specification vocabulary for time signals: a signal is looked at as a partial
    function from channel numbers and integer sample times to values. *)

From Coq Require Import String ZArith List Bool.
From Verif.Model Require Import Py Numpy Signal.
Import ListNotations.
Open Scope Z_scope.

Section Time.
Context {A : Type}.

(** The time of the first sample and the time after the last sample. *)
Definition begins (s : signal A) : Z := offset s.
Definition ends (s : signal A) : Z := offset s + length s.

(** The sample of channel [c] at time [t], if the signal has one there. *)
Definition at_time (s : signal A) (c t : Z) : option A := el (channels s) c (t - offset s).

(** The value of the [c]-th channel of a binary operation's operand: a signal with
    one channel stands for arbitrarily many equal channels. *)
Definition operand_at (s : signal A) (c t : Z) : option A :=
  at_time s (if count s =? 1 then 0 else c) t.

(** What a binary operation computes from the operands' values at one time. *)
Definition combination (f : A -> A -> A) (right_only : A -> A) (gap : A) (a b : option A) : A :=
  match a, b with
  | Some x, Some y => f x y
  | Some x, None => x
  | None, Some y => right_only y
  | None, None => gap
  end.

(** The label of each channel of a binary operation's result. *)
Definition label_of_result (p : operator) : string :=
  match p with
  | OpAdd => "Sum" | OpSub => "Difference" | OpMul => "Product"
  | OpDiv => "Quotient" | OpPow => "Power" | OpMod => "Modulo"
  end%string.

(** Two signals with the same samples at the same times. *)
Definition same_samples (s t : signal A) : Prop :=
  count s = count t /\ begins s = begins t /\ ends s = ends t /\
  forall c x, at_time s c x = at_time t c x.

End Time.
