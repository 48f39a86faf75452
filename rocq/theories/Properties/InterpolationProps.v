(** Properties of the interpolation functions and of [Bands]: C27 and C28.

    The x values are real numbers.  The y values are of any type or real numbers, which is said for each theorem. *)

From Coq Require Import ZArith List Bool Reals Lra.
From Verif.Model Require Import Py Signal Terms Interpolation.
From Verif.Spec Require Import RealSpec InterpolationSpec.
From Verif.Proofs Require Import PyFacts InterpolationFacts.
Import ListNotations.
Open Scope R_scope.

(** The interpolation of real values *)
Notation real_numbers power modulo := (real_axes (real_ops power modulo) (fun x => x) log2 exp2).

(** * C27 Interpolation passes through the support points *)

(** With any kind of numbers on both axes, as long as the comparison of x values is exact. *)
Theorem C27_support_points : forall K X (N : axes K X) (i : interpolation) (xs : list X) (ys : list K) (k : Z) (x : X),
  (forall a b, a_eqb N a b = true <-> a = b) -> NoDup xs -> zlen ys = zlen xs -> zth xs k = Some x ->
  interpolate_ N i x xs ys = zth ys k.
Proof. exact (fun K X N i xs ys k x E => interpolate_support N E i xs ys k x). Qed.
Print Assumptions C27_support_points.

(** The same for a term in a transfer function: the value of the filter at a supporting point is the given one, whatever the
    interpolation and the extrapolation are. *)
Theorem C27_bands : forall K (A : arithmetic K R) log2_k exp2_k of_real (inter extra : interpolation) (xs : list R) (ys : list K) (k : Z) (x : R) y junk transformed,
  (forall i, interpolate A i = interpolate_ (real_axes (k_ops A) of_real log2_k exp2_k) i) ->
  increasing xs -> zlen ys = zlen xs -> zth xs k = Some x -> zth ys k = Some y ->
  call A junk x (Bands xs ys inter extra) transformed false = (Some y, false).
Proof. exact @bands_support. Qed.
Print Assumptions C27_bands.

(** Straight lines on a linear y axis: between two neighbouring supporting points and outside the range of the supporting points.
    The values can be of any field that contains the real numbers, for example complex numbers. *)
Theorem C27_straight_lines : forall K (O : ops K) (of_real : R -> K) log2_k exp2_k i s xs ys k a x b ya yb,
  contains_reals O of_real -> linear_y i -> x_scale i = Some s ->
  increasing xs -> on_scale s xs x -> zlen ys = zlen xs ->
  line_points xs k a x b -> zth ys k = Some ya -> zth ys (k + 1) = Some yb ->
  interpolate_ (real_axes O of_real log2_k exp2_k) i x xs ys =
  Some (mix O of_real (progress (scaled s a) (scaled s x) (scaled s b)) ya yb).
Proof. exact (fun K O of_real log2_k exp2_k i s xs ys k a x b ya yb C => interpolate_linear_y O of_real log2_k exp2_k C i s xs ys k a x b ya yb). Qed.
Print Assumptions C27_straight_lines.

(** Straight lines on a logarithmic y axis, for positive values *)
Theorem C27_straight_lines_logarithmic : forall power modulo i s xs ys k a x b ya yb,
  logarithmic_y i -> x_scale i = Some s ->
  increasing xs -> on_scale s xs x -> zlen ys = zlen xs -> positive ys ->
  line_points xs k a x b -> zth ys k = Some ya -> zth ys (k + 1) = Some yb ->
  interpolate_ (real_numbers power modulo) i x xs ys = Some (geometric_mix (progress (scaled s a) (scaled s x) (scaled s b)) ya yb).
Proof. exact interpolate_log_y. Qed.
Print Assumptions C27_straight_lines_logarithmic.

(** Within the support, the value is between those of the neighbouring supporting points. *)
Theorem C27_between : forall power modulo i s xs ys k a x b ya yb,
  x_scale i = Some s -> increasing xs -> on_scale s xs x -> zlen ys = zlen xs -> (logarithmic_y i -> positive ys) ->
  between_points xs k a x b -> zth ys k = Some ya -> zth ys (k + 1) = Some yb ->
  exists y, interpolate_ (real_numbers power modulo) i x xs ys = Some y /\ Rmin ya yb <= y <= Rmax ya yb.
Proof. exact interpolate_between. Qed.
Print Assumptions C27_between.

(** A single supporting point defines a constant function. *)
Theorem C27_one_point : forall K (O : ops K) of_real log2_k exp2_k i x x0 y0,
  i <> Zero -> i <> One -> ~ logarithmic_y i -> interpolate_ (real_axes O of_real log2_k exp2_k) i x [x0] [y0] = Some y0.
Proof. exact @interpolate_one_point. Qed.
Print Assumptions C27_one_point.

(** The remaining two interpolations have the same value everywhere except for the supporting points. *)
Theorem C27_constants : forall K (O : ops K) of_real log2_k exp2_k x xs ys, ~ In x xs ->
  interpolate_ (real_axes O of_real log2_k exp2_k) Zero x xs ys = Some (o_zero O) /\
  interpolate_ (real_axes O of_real log2_k exp2_k) One x xs ys = Some (o_one O).
Proof. exact @interpolate_constants. Qed.
Print Assumptions C27_constants.

Example C27_increasing_example : increasing [1; 4; 5] /\ positive [1; 4; 5] /\ between_points [1; 4; 5] 0 1 2 4 /\ on_scale Log [1; 4; 5] 2 /\
  line_points [1; 4; 5] 1 4 7 5 /\ line_points [1; 4; 5] 0 1 (1/2) 4.
Proof.
  split; [show_increasing|]. split; [show_positive|]. split; [repeat split; lra|]. split; [split; [show_positive|lra]|].
  split; [split; [reflexivity|split; [reflexivity|right; right; split; [reflexivity|lra]]]|].
  split; [reflexivity|split; [reflexivity|right; left; split; [reflexivity|lra]]].
Qed.

(** Two is in the middle between one and four on a logarithmic axis, so that the value is the geometric mean of the values at one and
    four. *)
Example C27_example : forall power modulo,
  interpolate_ (real_numbers power modulo) Logarithmic 2 [1; 4; 5] [2; 8; 3] = Some 4 /\
  interpolate_ (real_numbers power modulo) LogX 2 [1; 4; 5] [2; -8; 3] = Some (-3) /\
  interpolate_ (real_numbers power modulo) Linear 2 [1; 4; 5] [2; -8; 3] = Some (-4/3) /\
  interpolate_ (real_numbers power modulo) Linear 7 [1; 4; 5] [2; -8; 3] = Some 25.
Proof. exact interpolation_example. Qed.

(** * C28 Stairs interpolation takes the nearest support point *)

Theorem C28_stairs_lin : forall K (O : ops K) of_real log2_k exp2_k xs ys x,
  xs <> [] -> increasing xs -> zlen ys = zlen xs ->
  exists k, nearest (fun x => x) xs x k /\ interpolate_ (real_axes O of_real log2_k exp2_k) StairsLin x xs ys = zth ys k.
Proof. exact @stairs_nearest. Qed.
Print Assumptions C28_stairs_lin.

Theorem C28_stairs_log : forall K (O : ops K) of_real log2_k exp2_k xs ys x,
  xs <> [] -> increasing xs -> positive xs -> zlen ys = zlen xs -> 0 < x ->
  exists k, nearest log2 xs x k /\ interpolate_ (real_axes O of_real log2_k exp2_k) StairsLog x xs ys = zth ys k.
Proof. exact @stairs_log_nearest. Qed.
Print Assumptions C28_stairs_log.

(** Where the logarithm is not defined, the first supporting point is the nearest one. *)
Theorem C28_stairs_log_not_positive : forall K (O : ops K) of_real log2_k exp2_k xs ys a x,
  increasing xs -> zlen ys = zlen xs -> zth xs 0 = Some a -> x <= a ->
  interpolate_ (real_axes O of_real log2_k exp2_k) StairsLog x xs ys = zth ys 0.
Proof. exact @stairs_log_below. Qed.
Print Assumptions C28_stairs_log_not_positive.

(** The nearest supporting point is not ambiguous. *)
Theorem C28_nearest_unique : forall s xs x k m, nearest s xs x k -> nearest s xs x m -> k = m.
Proof. exact nearest_unique. Qed.
Print Assumptions C28_nearest_unique.

(** 2.4 is nearer to 1 than to 4, but on a logarithmic axis it is nearer to 4. *)
Example C28_example : forall K (O : ops K) of_real log2_k exp2_k y1 y4,
  interpolate_ (real_axes O of_real log2_k exp2_k) StairsLin (24/10) [1; 4] [y1; y4] = Some y1 /\
  interpolate_ (real_axes O of_real log2_k exp2_k) StairsLog (24/10) [1; 4] [y1; y4] = Some y4 /\
  interpolate_ (real_axes O of_real log2_k exp2_k) StairsLin (25/10) [1; 4] [y1; y4] = Some y4.
Proof. exact @stairs_example. Qed.
