(** Specification vocabulary for generated signals: the slopes of a fade, the Rudin-Shapiro sequence, the energy of a tail. *)

From Coq Require Import ZArith List Bool.
From Verif.Model Require Import Py Functions Signal Generators.
Import ListNotations.
Open Scope Z_scope.

Section Fades.
Context {A : Type}.
Variable O : ops A.

(** A fade in: 0 before the interval, then the first half of the window of twice the interval's length, 1 after the interval. *)
Definition rising (w : Z -> list A) (a b t : Z) : option A :=
  if t <? a then Some (o_zero O) else if t <? b then zth (w (2 * (b - a))) (t - a) else Some (o_one O).

(** A fade out: 1 before the interval, then the second half of the window, 0 after the interval. *)
Definition falling (w : Z -> list A) (a b t : Z) : option A :=
  if t <? a then Some (o_one O) else if t <? b then zth (w (2 * (b - a))) ((b - a) + (t - a)) else Some (o_zero O).

Definition lift2 (f : A -> A -> A) (x y : option A) : option A :=
  match x, y with Some x, Some y => Some (f x y) | _, _ => None end.

(** The laws of 0 and 1 that hold for finite floating point numbers. *)
Definition zero_one_laws : Prop := forall x,
  o_mul O (o_zero O) x = o_zero O /\ o_mul O x (o_zero O) = o_zero O /\ o_mul O (o_one O) x = x /\ o_mul O x (o_one O) = x /\
  o_add O (o_zero O) x = x /\ o_add O x (o_zero O) = x.

(** An interval within a signal of length [n], or none. *)
Definition inside (n : Z) (i : option (Z * Z)) : Prop := match i with None => True | Some (a, b) => 0 <= a <= b /\ b <= n end.

(** Without an interval, there is no slope. *)
Definition rising_or_one (w : Z -> list A) (i : option (Z * Z)) (t : Z) : option A := match i with None => Some (o_one O) | Some (a, b) => rising w a b t end.
Definition falling_or_one (w : Z -> list A) (i : option (Z * Z)) (t : Z) : option A := match i with None => Some (o_one O) | Some (a, b) => falling w a b t end.

(** The fade out comes first, unless the fade in begins earlier or is a step at the beginning of the fade out. *)
Definition out_first (rise fall : option (Z * Z)) : bool :=
  match rise, fall with
  | Some (a, b), Some (c, d) => negb ((a <? c) || ((a =? b) && (b =? c) && (c <? d)))
  | _, _ => false
  end.

(** The indices, that an interval for a fade in and a fade out stands for. *)
Definition rise_interval (i : interval) (length : Z) (r : option (Z * Z)) : Prop :=
  match i, r with
  | INone, None => True
  | INumber n, Some (a, b) => a = 0 /\ index n length = Ok b
  | IPair x y, Some (a, b) => index x length = Ok a /\ index y length = Ok b
  | _, _ => False
  end.
Definition fall_interval (i : interval) (length : Z) (r : option (Z * Z)) : Prop :=
  match i, r with
  | INone, None => True
  | INumber n, Some (a, b) => index n length = Ok a /\ b = length
  | IPair x y, Some (a, b) => index x length = Ok a /\ index y length = Ok b
  | _, _ => False
  end.

(** A sequence that is equal to its reversal. *)
Definition mirrored (v : list A) : Prop := forall i, zth v i = zth v (zlen v - 1 - i).

(** The sum of the squares. *)
Fixpoint energy (l : list A) : A :=
  match l with [] => o_zero O | x :: t => o_add O (o_mul O x x) (energy t) end.

End Fades.

(** Whether the number of pairs of adjacent ones in the binary representation is odd. *)
Fixpoint odd_pairs_pos (p : positive) : bool :=
  match p with
  | xH => false
  | xO q => odd_pairs_pos q
  | xI q => xorb (odd_pairs_pos q) (match q with xO _ => false | _ => true end)
  end.
Definition odd_pairs (n : Z) : bool := match n with Zpos p => odd_pairs_pos p | _ => false end.

(** The Rudin-Shapiro sequence: 1 or -1. *)
Definition rudin_shapiro_value {A} (O : ops A) (n : Z) : A := if odd_pairs n then o_neg O (o_one O) else o_one O.

(** What SciPy's [max_len_seq] documents about its result and its exceptions. *)
Definition scipy_max_len_seq (f : Z -> list bool -> Z -> result (list bool)) : Prop := forall bits state length,
  (2 <= bits <= 32 -> zlen state = bits -> existsb (fun x => x) state = true -> 0 <= length ->
   exists sequence, f bits state length = Ok sequence /\ zlen sequence = length) /\
  (~ (2 <= bits <= 32) -> f bits state length = Err ValueError).

(** The number of bits [b] and the length [n] for the given parameters. *)
Definition mls_parameters (bits length : option Z) (b n : Z) : Prop :=
  match length, bits with
  | None, None => b = 16 /\ n = 65535
  | None, Some bits => b = bits /\ n = 2 ^ bits - 1
  | Some length, Some bits => b = bits /\ n = length
  | Some length, None => n = length /\ 0 <= b /\ length <= 2 ^ b - 1 /\ forall c, 0 <= c -> length <= 2 ^ c - 1 -> b <= c
  end.
