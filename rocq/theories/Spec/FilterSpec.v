(** Specification vocabulary for filters: what their transfer functions are at the frequencies, at which they can be called. *)

From Coq Require Import String ZArith List Bool.
From Verif.Model Require Import Py Signal Terms Filter.
From Verif.Spec Require Import TermsSpec.
Import ListNotations.
Open Scope Z_scope.

(** The terms, for which the operators are claimed to be right: either no object of the term has the lowpass-to-highpass transform, or none
    is a difference.  All polynomials have coefficients; bands have supporting points and a pointwise interpolation. *)
Inductive kind := Untransformed | NoDifferences.

(** The interpolations of bands, that can be added by adding the values at the supporting points *)
Definition additive (i : interpolation) : Prop := i = Zero \/ i = Linear \/ i = LogX \/ i = StairsLin \/ i = StairsLog.

Section Filters.
Context {K X : Type}.
Variable A : arithmetic K X.
Notation O := (k_ops A).
Notation term := (term K X).
Notation filter := (filter K X).
Variable junk : K.

Definition regular (k : kind) : term -> Prop :=
  every (fun t => proper t /\ match k with Untransformed => untransformed t | NoDifferences => no_difference t end).
Definition regular_filter (k : kind) (F : filter) : Prop := Forall (regular k) (transfer_functions F).

(** A transformed term has no value at 0 Hz. *)
Definition defined_at (k : kind) (f : X) : Prop := match k with Untransformed => True | NoDifferences => s_of A f <> o_zero O end.

(** The flags, with which a term of the kind can be created *)
Definition allowed (k : kind) (x : bool) : Prop := match k with Untransformed => x = false | NoDifferences => True end.

(** What a term and what the channel [c] of a filter give, when they are called with the frequency [f]; [None] is a value that is not finite,
    or a channel that does not exist. *)
Definition evaluate (t : term) (f : X) : option K := fst (call A junk f t false false).
Definition response (F : filter) (c : Z) (f : X) : option K := match zth (filter_call A junk F f) c with Some r => r | None => None end.

(** Every channel has a label *)
Definition labelled (F : filter) : Prop := zlen (f_labels F) = f_count F.

(** Filters with one channel are combined with each channel of the other filter. *)
Definition compatible (m n : Z) : Prop := m = 1 \/ n = 1 \/ m = n.
Definition combined (m n : Z) : Z := if m =? 1 then n else m.
Definition channel_of (F : filter) (c : Z) : Z := if f_count F =? 1 then 0 else c.

(** The transfer functions of [H] are computed from those of [F] and [G], or from those of [F] alone, at each frequency, at which they have
    finite values [a] and [b] for which the operation is defined. *)
Definition pointwise2 (k : kind) (op : K -> K -> K) (defined : K -> Prop) (F G H : filter) : Prop :=
  f_count H = combined (f_count F) (f_count G) /\
  forall c f a b, 0 <= c < f_count H -> defined_at k f ->
    response F (channel_of F c) f = Some a -> response G (channel_of G c) f = Some b -> defined b -> response H c f = Some (op a b).
Definition pointwise1 (k : kind) (op : K -> K) (defined : K -> Prop) (F H : filter) : Prop :=
  f_count H = f_count F /\
  forall c f a, 0 <= c < f_count H -> defined_at k f -> response F c f = Some a -> defined a -> response H c f = Some (op a).

Definition always (x : K) : Prop := True.
Definition not_zero (x : K) : Prop := x <> o_zero O.

(** All of the channels have the same label. *)
Definition labels_of (label : string) (H : filter) : Prop := f_labels H = zrepeat label (f_count H).

(** At all frequencies but 0 Hz, and there as well, if no object of the filter has the lowpass-to-highpass transform *)
Definition plain_at (F : filter) (f : X) : Prop := s_of A f <> o_zero O \/ Forall (every (@untransformed K X)) (transfer_functions F).

(** The objects, that can be read from a dictionary again: a logarithmic stairs function is never used for extrapolation and the values of
    bands are put together from their real and imaginary parts. *)
Definition readable (real imag : K -> K) (unit : K) (t : term) : Prop :=
  match t with
  | Bands xs ys i e => e <> StairsLog /\ forall y, In y ys -> o_add O (o_mul O (imag y) unit) (real y) = y
  | _ => True
  end.

(** Dividing by a constant, that is 0, or by bands with a value, that is 0, might raise an exception. *)
Definition divisor (t : term) : Prop :=
  match t with
  | Constant v => v <> o_zero O
  | Bands _ ys _ _ => ~ In (o_zero O) ys
  | _ => True
  end.

(** The terms have the same value, wherever the first one has one. *)
Definition same_response (k : kind) (t u : term) : Prop := forall f a, defined_at k f -> evaluate t f = Some a -> evaluate u f = Some a.

End Filters.
