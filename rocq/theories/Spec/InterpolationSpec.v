(** Specification vocabulary for interpolations with real x values. *)

From Coq Require Import ZArith List Reals Field_theory.
From Verif.Model Require Import Py Signal Terms Interpolation.
Import ListNotations.
Open Scope R_scope.

Definition log2 (x : R) : R := ln x / ln 2.
Definition exp2 (x : R) : R := Rpower 2 x.

Definition R_ltb (x y : R) : bool := if Rlt_dec x y then true else false.
Definition R_eqb (x y : R) : bool := if Req_EM_T x y then true else false.

(** The x values are real numbers and the y values are of a type, that contains the real numbers by the function [of_real]. *)
Definition real_axes {K} (O : ops K) (of_real : R -> K) (log2_k exp2_k : K -> K) : axes K R :=
  Axes K R O Rminus R_ltb R_eqb Rabs of_real log2 log2_k exp2_k.

(** The x values are sorted and different. *)
Definition increasing (xs : list R) : Prop :=
  forall i j a b, zth xs i = Some a -> zth xs j = Some b -> (i < j)%Z -> a < b.

Definition positive (l : list R) : Prop := forall x, In x l -> 0 < x.

(** [x] is between the supporting points with the numbers [k] and [k + 1]. *)
Definition between_points (xs : list R) (k : Z) (a x b : R) : Prop :=
  zth xs k = Some a /\ zth xs (k + 1) = Some b /\ a < x < b.

(** How far [x] is on the way from [a] to [b] *)
Definition progress (a x b : R) : R := (x - a) / (b - a).

(** [K] is a field, that contains the real numbers. *)
Record contains_reals {K} (O : ops K) (of_real : R -> K) : Prop := {
  reals_field : field_theory (o_zero O) (o_one O) (o_add O) (o_mul O) (o_sub O) (o_neg O) (o_div O) (o_div O (o_one O)) eq;
  reals_sub : forall x y, of_real (x - y) = o_sub O (of_real x) (of_real y);
  reals_div : forall x y, y <> 0 -> of_real (x / y) = o_div O (of_real x) (of_real y);
  reals_zero : of_real 0 = o_zero O;
  reals_injective : forall x y, of_real x = of_real y -> x = y
}.

(** The value on the way from [y0] to [y1] *)
Definition mix {K} (O : ops K) (of_real : R -> K) (t : R) (y0 y1 : K) : K :=
  o_add O y0 (o_mul O (of_real t) (o_sub O y1 y0)).

(** The supporting point with the number [k] has the smallest distance to [x] on an axis with the given scale.  Of two supporting
    points with the same distance, it is the one with the larger x value. *)
Definition nearest (scale : R -> R) (xs : list R) (x : R) (k : Z) : Prop :=
  exists a, zth xs k = Some a /\
  forall j b, zth xs j = Some b ->
    Rabs (scale x - scale a) <= Rabs (scale x - scale b) /\ ((k < j)%Z -> Rabs (scale x - scale a) < Rabs (scale x - scale b)).

(** The value on the way from [y0] to [y1], if the way is straight on a logarithmic axis *)
Definition geometric_mix (t y0 y1 : R) : R := Rpower y0 (1 - t) * Rpower y1 t.

(** A scale for the x axis or the y axis, and which of them an interpolation has *)
Inductive scale := Lin | Log.
Definition x_scale (i : interpolation) : option scale :=
  match i with Linear | LogY | StairsLin => Some Lin | Logarithmic | LogX | StairsLog => Some Log | Zero | One => None end.
Definition scaled (s : scale) (x : R) : R := match s with Lin => x | Log => log2 x end.

(** The supporting points with the numbers [k] and [k + 1] determine the value at [x]: the point [x] is between them, or it is
    outside the range of the supporting points and these are the nearest two of them. *)
Definition line_points (xs : list R) (k : Z) (a x b : R) : Prop :=
  zth xs k = Some a /\ zth xs (k + 1) = Some b /\
  (a < x < b \/ (k = 0%Z /\ x < a) \/ ((k + 2)%Z = zlen xs /\ b < x)).

(** Interpolations, whose values are on straight lines, if the y axis is linear or logarithmic, respectively *)
Definition linear_y (i : interpolation) : Prop := i = Linear \/ i = LogX.
Definition logarithmic_y (i : interpolation) : Prop := i = LogY \/ i = Logarithmic.

(** Logarithmic axes only have positive values. *)
Definition on_scale (s : scale) (xs : list R) (x : R) : Prop := match s with Lin => True | Log => positive xs /\ 0 < x end.
