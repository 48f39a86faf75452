(** Specification vocabulary for Fourier transforms in blocks: where the blocks are and how the windows of the blocks overlap. *)

From Coq Require Import String ZArith List Bool Reals.
From Verif.Model Require Import Py Numpy Signal.
From Verif.Spec Require Import TimeSpec ComplexSpec FourierSpec.
Import ListNotations.
Open Scope Z_scope.

(** The factor of the window for the channel [c], [n] samples after the beginning of the block.  It is zero outside of the window.  A
    window with one channel is the window for every channel. *)
Definition window_at (w : signal R) (c n : Z) : R :=
  match el (channels w) (if count w =? 1 then 0 else c) n with Some x => x | None => 0%R end.

(** The same for the samples of the signal *)
Definition operand_sample (s : signal R) (c t : Z) : R := match operand_at s c t with Some x => x | None => 0%R end.

(** Where the blocks begin, counted from the first sample of the signal: at each multiple of [step], for which the block
    overlaps the signal ([pad=True]) or is completely inside of it ([pad=False]).  [l] is the length of a block and [n] that of the signal. *)
Definition overlapping_blocks (l n step : Z) : list Z := filter (fun b => b mod step =? 0) (zseq (1 - l) (l - 1 + n)).
Definition inner_blocks (l n step : Z) : list Z := filter (fun b => b mod step =? 0) (zseq 0 (n - l + 1)).

(** The sum of [f x] for each [x] in a list *)
Definition Rsum_list (l : list Z) (f : Z -> R) : R := fold_right (fun b a => (f b + a)%R) 0%R l.

(** The sum of the windows of all given blocks at the time [t] *)
Definition overlap_sum (w : signal R) (c : Z) (blocks : list Z) (t : Z) : R := Rsum_list blocks (fun b => window_at w c (t - b)).

(** Its mean value during one window *)
Definition mean_overlap (w : signal R) (c step : Z) : R :=
  (Rsum_list (zseq 0 (length w)) (overlap_sum w c (overlapping_blocks (length w) (length w) step)) / IZR (length w))%R.

(** The windows, each of which is shifted by a multiple of [step], have the sum [d] at each time *)
Definition constant_overlap_add (w : signal R) (step : Z) (d : R) : Prop :=
  forall c t, 0 <= c < count w -> Rsum_list (zseq 0 (length w)) (fun n => if (n - t) mod step =? 0 then window_at w c n else 0%R) = d.

(** The Fourier transform of the channel [c] at the frequency [f], if the samples are multiplied with a gain that depends on the time *)
Definition weighted_fourier_sum (s : signal R) (c : Z) (gain : Z -> R) (f : R) : C :=
  Csum_over_time s (fun t => Cmul (C_of_R (operand_sample s c t * gain t)%R) (cis (- (2 * PI * f * IZR t))%R)).
