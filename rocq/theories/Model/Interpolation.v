(** Model of the interpolation functions: /repo/sumpf/_internal/_interpolation.py.

    The functions are modelled for one x value: the decorator (lines 60-84) calls them for scalars and for arrays, which
    are processed element by element.  The x values of the supporting points are of the type [X], their y values are of the type
    [K], whose arithmetic may mix with x values, that are converted with [of_x]. *)

From Coq Require Import ZArith List Bool.
From Verif.Model Require Import Py Signal Terms.
Import ListNotations.
Open Scope Z_scope.

(** What is required from the numbers on both axes.  (Logarithms of numbers, that are not positive, are whatever [log2_x] and [log2_k]
    say.) *)
Record axes (K X : Type) := Axes {
  a_ops : ops K;
  a_sub : X -> X -> X;          (* - *)
  a_ltb : X -> X -> bool;       (* < *)
  a_eqb : X -> X -> bool;       (* == *)
  a_fabs : X -> X;              (* numpy.fabs *)
  of_x : X -> K;
  log2_x : X -> X;              (* numpy.log2 *)
  log2_k : K -> K;
  exp2_k : K -> K               (* numpy.exp2 *)
}.
Arguments a_ops {K X}. Arguments a_sub {K X}. Arguments a_ltb {K X}. Arguments a_eqb {K X}. Arguments a_fabs {K X}.
Arguments of_x {K X}. Arguments log2_x {K X}. Arguments log2_k {K X}. Arguments exp2_k {K X}.

Section Interpolation.
Context {K X : Type}.
Variable N : axes K X.
Notation O := (a_ops N).

(** [ys[xs == x][0]], if [x in xs]: _interpolation.py:71-72 and 80-81 *)
Fixpoint at_support (x : X) (xs : list X) (ys : list K) : option K :=
  match xs, ys with
  | x0 :: xs, y0 :: ys => if a_eqb N x0 x then Some y0 else at_support x xs ys
  | _, _ => None
  end.

(** _interpolation.py:60-84, the decorator [interpolation] *)
Definition interpolation_ (func : X -> list X -> list K -> option K) (x : X) (xs : list X) (ys : list K) : option K :=
  if existsb (fun x0 => a_eqb N x0 x) xs then at_support x xs ys else func x xs ys.

(** [numpy.interp(x, xp=xs, fp=ys)] *)
Fixpoint np_interp (x : X) (xs : list X) (ys : list K) : option K :=
  match xs, ys with
  | [x0], [y0] => Some y0
  | x0 :: (x1 :: _) as xt, y0 :: (y1 :: _) as yt =>
      if a_ltb N x x0 then Some y0
      else if a_ltb N x x1 then
        let slope := o_div O (o_sub O y1 y0) (of_x N (a_sub N x1 x0)) in
        Some (o_add O (o_mul O slope (of_x N (a_sub N x x0))) y0)
      else np_interp x xt yt
  | _, _ => None
  end.

(** [m * x + n], where [m = (yb - ya) / (xb - xa)] and [n = y - m * x'] *)
Definition line (xa : X) (ya : K) (xb : X) (yb : K) (x' : X) (y : K) (x : X) : K :=
  let m := o_div O (o_sub O yb ya) (of_x N (a_sub N xb xa)) in
  let n := o_sub O y (o_mul O m (of_x N x')) in
  o_add O (o_mul O m (of_x N x)) n.

(** _interpolation.py:127-165 *)
Definition linear_ (x : X) (xs : list X) (ys : list K) : option K :=
  match xs, ys with
  | [_], y0 :: _ => Some y0
  | x0 :: x1 :: _, y0 :: y1 :: _ =>
      if a_ltb N x x0 then Some (line x0 y0 x1 y1 x0 y0 x)
      else
        match rev xs, rev ys with
        | xl :: xp :: _, yl :: yp :: _ =>
            if a_ltb N xl x then Some (line xp yp xl yl xl yl x) else np_interp x xs ys
        | _, _ => None
        end
  | _, _ => None
  end.

(** [numpy.searchsorted(xs, x)] *)
Fixpoint searchsorted (xs : list X) (x : X) : Z :=
  match xs with
  | [] => 0
  | x0 :: xs => if a_ltb N x0 x then 1 + searchsorted xs x else 0
  end.

(** _interpolation.py:243-256 *)
Definition stairs_lin_ (x : X) (xs : list X) (ys : list K) : option K :=
  let i := searchsorted xs x in
  let i := if zlen ys <=? i then i - 1 else i in
  match zth xs (Z.max (i - 1) 0), zth xs i with
  | Some xl, Some xr =>
      let left := a_sub N x xl in
      let right := a_sub N x xr in
      let i := if a_ltb N (a_fabs N left) (a_fabs N right) then i - 1 else i in
      zth ys i
  | _, _ => None
  end.

(** [xs.min()] and [xs.max()] *)
Fixpoint minimum (x : X) (xs : list X) : X := match xs with [] => x | y :: xs => minimum (if a_ltb N y x then y else x) xs end.
Fixpoint maximum (x : X) (xs : list X) : X := match xs with [] => x | y :: xs => maximum (if a_ltb N x y then y else x) xs end.

(** _interpolation.py:283-313 *)
Definition stairs_log_ (x : X) (xs : list X) (ys : list K) : option K :=
  match xs with
  | [] => None
  | x0 :: xt =>
      if a_ltb N x (minimum x0 xt) then at_support (minimum x0 xt) xs ys
      else if a_ltb N (maximum x0 xt) x then at_support (maximum x0 xt) xs ys
      else stairs_lin_ (log2_x N x) (map (log2_x N) xs) ys
  end.

(** _interpolation.py:26-57 and the interpolation functions, lines 87-125, 168-240 and 259-313 *)
Definition interpolation_function (flag : interpolation) (x : X) (xs : list X) (ys : list K) : option K :=
  match flag with
  | Zero => Some (o_zero O)
  | One => Some (o_one O)
  | Linear => linear_ x xs ys
  | Logarithmic => option_map (exp2_k N) (linear_ (log2_x N x) (map (log2_x N) xs) (map (log2_k N) ys))
  | LogX => linear_ (log2_x N x) (map (log2_x N) xs) ys
  | LogY => option_map (exp2_k N) (linear_ x xs (map (log2_k N) ys))
  | StairsLin => stairs_lin_ x xs ys
  | StairsLog => stairs_log_ x xs ys
  end.

Definition interpolate_ (flag : interpolation) : X -> list X -> list K -> option K := interpolation_ (interpolation_function flag).

End Interpolation.
