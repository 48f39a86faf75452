(** Specification vocabulary for spectrums: partial functions from channel numbers and
    bin numbers to values. *)

From Coq Require Import ZArith List Bool.
From Verif.Model Require Import Py Numpy Signal Spectrum.
Open Scope Z_scope.

Section Frequency.
Context {A R : Type}.

(** The value of channel [c] in the frequency bin [k], if there is one. *)
Definition bin (s : spectrum A R) (c k : Z) : option A := el (sp_channels s) c k.

(** A spectrum with one channel stands for arbitrarily many equal channels. *)
Definition operand_bin (s : spectrum A R) (c k : Z) : option A := bin s (if sp_count s =? 1 then 0 else c) k.

(** What a binary operation computes from the values of its operands, of which at least one exists. *)
Definition either (f : A -> A -> A) (right_only : A -> A) (a b : option A) : option A :=
  match a, b with
  | Some x, Some y => Some (f x y)
  | Some x, None => Some x
  | None, Some y => Some (right_only y)
  | None, None => None
  end.

End Frequency.
