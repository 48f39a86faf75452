(** Specification vocabulary for spectrograms: partial functions from channel numbers,
    frequency bins and integer sample times to values. *)

From Coq Require Import ZArith List Bool.
From Verif.Model Require Import Py Numpy Signal Cube Spectrogram.
Open Scope Z_scope.

Section Spectrogram.
Context {A R : Type}.
Implicit Types s : spectrogram A R.

(** The time of the first samples and the time after the last ones. *)
Definition sg_begins s : Z := sg_offset s.
Definition sg_ends s : Z := sg_offset s + sg_length s.

(** The value of channel [c] in the frequency bin [f] at the time [t], if there is one. *)
Definition sg_at s (c f t : Z) : option A := cell (sg_channels s) c f (t - sg_offset s).

(** A spectrogram with one channel stands for arbitrarily many equal channels. *)
Definition operand_sg s (c f t : Z) : option A := sg_at s (if sg_count s =? 1 then 0 else c) f t.

End Spectrogram.
