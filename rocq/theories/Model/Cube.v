(** The part of NumPy that /repo/sumpf uses on three dimensional arrays: shapes, basic
    slicing, slice assignment, transposed views, broadcasting and element-wise functions
    with an [out] argument.  Not code of /repo.

    A three dimensional array is given by its shape and the partial function that maps
    three indices to the element.  Operands with fewer dimensions get leading dimensions
    of size one, as in NumPy's broadcasting.  As in Numpy.v, dtypes are not modelled and a
    write to a view is a write to the array, of which it is a view. *)

From Coq Require Import ZArith List Bool.
From Verif.Model Require Import Py Numpy.
Import ListNotations.
Open Scope Z_scope.

Record cube (A : Type) : Type := Cube { dim0 : Z; dim1 : Z; dim2 : Z; cell : Z -> Z -> Z -> option A }.
Arguments Cube {A}. Arguments dim0 {A}. Arguments dim1 {A}. Arguments dim2 {A}. Arguments cell {A}.

Definition inside (n0 n1 n2 i j k : Z) : bool :=
  (0 <=? i) && (i <? n0) && (0 <=? j) && (j <? n1) && (0 <=? k) && (k <? n2).

(** Well formed: there is an element for each triple of indices within the shape and no other one. *)
Definition wf_cube {A} (m : cube A) : Prop :=
  0 <= dim0 m /\ 0 <= dim1 m /\ 0 <= dim2 m /\
  forall i j k, (exists x, cell m i j k = Some x) <-> inside (dim0 m) (dim1 m) (dim2 m) i j k = true.

(** [sumpf_internal.allocate_array((n0, n1, n2))]: _internal/_functions.py:29-43, with arbitrary initial contents. *)
Definition allocate3 {A} (junk : Z -> Z -> Z -> A) (n0 n1 n2 : Z) : result (cube A) :=
  if (n0 <? 0) || (n1 <? 0) || (n2 <? 0) then Err ValueError
  else Ok (Cube n0 n1 n2 (fun i j k => if inside n0 n1 n2 i j k then Some (junk i j k) else None)).

(** [m[b0, b1, b2]] for slices with step one. *)
Definition sub3 {A} (m : cube A) (b0 b1 b2 : bounds) : cube A :=
  let l0 := lower b0 (dim0 m) in let l1 := lower b1 (dim1 m) in let l2 := lower b2 (dim2 m) in
  let n0 := upper b0 (dim0 m) - l0 in let n1 := upper b1 (dim1 m) - l1 in let n2 := upper b2 (dim2 m) - l2 in
  Cube n0 n1 n2 (fun i j k => if inside n0 n1 n2 i j k then cell m (l0 + i) (l1 + j) (l2 + k) else None).

(** [m[i]], here an array with one layer. *)
Definition layer {A} (m : cube A) (i : Z) : result (cube A) :=
  let i' := if i <? 0 then i + dim0 m else i in
  if (i' <? 0) || (dim0 m <=? i') then Err IndexError
  else Ok (Cube 1 (dim1 m) (dim2 m) (fun a j k => if a =? 0 then cell m i' j k else None)).

(** A two dimensional array as an operand. *)
Definition cube_of {A} (m : arr A) : cube A :=
  Cube 1 (nrows m) (cols m) (fun a j k => if a =? 0 then el m j k else None).

(** A number as an operand. *)
Definition scalar3 {A} (x : A) : cube A :=
  Cube 1 1 1 (fun i j k => if inside 1 1 1 i j k then Some x else None).

(** Broadcasting: a dimension of size [n] is used for one of size [k]. *)
Definition fits (n k : Z) : bool := (n =? k) || (n =? 1).
Definition stretch (n i : Z) : Z := if n =? 1 then 0 else i.
Definition fits3 {A} (m : cube A) (n0 n1 n2 : Z) : bool :=
  fits (dim0 m) n0 && fits (dim1 m) n1 && fits (dim2 m) n2.
Definition cell_stretched {A} (m : cube A) (i j k : Z) : option A :=
  cell m (stretch (dim0 m) i) (stretch (dim1 m) j) (stretch (dim2 m) k).

(** [m[b0, b1, b2] = src] *)
Definition set3 {A} (m : cube A) (b0 b1 b2 : bounds) (src : cube A) : result (cube A) :=
  let l0 := lower b0 (dim0 m) in let l1 := lower b1 (dim1 m) in let l2 := lower b2 (dim2 m) in
  let u0 := upper b0 (dim0 m) in let u1 := upper b1 (dim1 m) in let u2 := upper b2 (dim2 m) in
  if fits3 src (u0 - l0) (u1 - l1) (u2 - l2) then
    Ok (Cube (dim0 m) (dim1 m) (dim2 m) (fun i j k =>
          if (l0 <=? i) && (i <? u0) && (l1 <=? j) && (j <? u1) && (l2 <=? k) && (k <? u2)
          then cell_stretched src (i - l0) (j - l1) (k - l2) else cell m i j k))
  else Err ValueError.

(** [f(a, b)] broadcast to the shape of the output. *)
Definition ufunc3 {A B C} (f : A -> B -> C) (a : cube A) (b : cube B) (n0 n1 n2 : Z) : result (cube C) :=
  if fits3 a n0 n1 n2 && fits3 b n0 n1 n2 then
    Ok (Cube n0 n1 n2 (fun i j k =>
          if inside n0 n1 n2 i j k then
            match cell_stretched a i j k, cell_stretched b i j k with
            | Some x, Some y => Some (f x y)
            | _, _ => None
            end
          else None))
  else Err ValueError.

(** [f(a, b, out=m[b0, b1, b2])] *)
Definition ufunc3_into {A B C} (f : A -> B -> C) (a : cube A) (b : cube B) (m : cube C) (b0 b1 b2 : bounds) : result (cube C) :=
  s <- ufunc3 f a b (upper b0 (dim0 m) - lower b0 (dim0 m)) (upper b1 (dim1 m) - lower b1 (dim1 m))
                    (upper b2 (dim2 m) - lower b2 (dim2 m)) ;;
  set3 m b0 b1 b2 s.

(** [f(a)] element by element. *)
Definition map3 {A B} (f : A -> B) (m : cube A) : cube B :=
  Cube (dim0 m) (dim1 m) (dim2 m) (fun i j k => option_map f (cell m i j k)).

(** [m.transpose(axes)] for the axes that occur in the code: the axis number [n] of the result
    is the axis [axes[n]] of [m]. *)
Inductive axes := Axes102 | Axes201 | Axes021.
Definition transpose {A} (a : axes) (m : cube A) : cube A :=
  match a with
  | Axes102 => Cube (dim1 m) (dim0 m) (dim2 m) (fun i j k => cell m j i k)
  | Axes201 => Cube (dim2 m) (dim0 m) (dim1 m) (fun i j k => cell m j k i)
  | Axes021 => Cube (dim0 m) (dim2 m) (dim1 m) (fun i j k => cell m i k j)
  end.
(** The array, of which [m] is the transposed view. *)
Definition untranspose {A} (a : axes) (m : cube A) : cube A :=
  match a with
  | Axes102 => Cube (dim1 m) (dim0 m) (dim2 m) (fun i j k => cell m j i k)
  | Axes201 => Cube (dim1 m) (dim2 m) (dim0 m) (fun i j k => cell m k i j)
  | Axes021 => Cube (dim0 m) (dim2 m) (dim1 m) (fun i j k => cell m i k j)
  end.

(** [m.transpose(axes)[b0, b1, b2] = src] *)
Definition set3_view {A} (a : axes) (m : cube A) (b0 b1 b2 : bounds) (src : cube A) : result (cube A) :=
  t <- set3 (transpose a m) b0 b1 b2 src ;; Ok (untranspose a t).
(** [f(x, y, out=m.transpose(axes)[b0, b1, b2])] *)
Definition ufunc3_view {A B C} (f : A -> B -> C) (x : cube A) (y : cube B) (a : axes) (m : cube C) (b0 b1 b2 : bounds)
  : result (cube C) :=
  t <- ufunc3_into f x y (transpose a m) b0 b1 b2 ;; Ok (untranspose a t).

(** [m[s0, s1, s2]] for general slices. *)
Definition slice3 {A} (m : cube A) (s0 s1 s2 : slice) : result (cube A) :=
  if (slice_step s0 =? 0) || (slice_step s1 =? 0) || (slice_step s2 =? 0) then Err ValueError
  else
    let n0 := slice_count s0 (dim0 m) in let n1 := slice_count s1 (dim1 m) in let n2 := slice_count s2 (dim2 m) in
    Ok (Cube n0 n1 n2 (fun i j k =>
          if inside n0 n1 n2 i j k then
            cell m (slice_first s0 (dim0 m) + i * slice_step s0) (slice_first s1 (dim1 m) + j * slice_step s1)
                   (slice_first s2 (dim2 m) + k * slice_step s2)
          else None)).

(** The elements in C order. *)
Definition elements3 {A} (m : cube A) : list A :=
  flat_map (fun i => flat_map (fun j => flat_map (fun k => match cell m i j k with Some x => [x] | None => [] end)
    (zseq 0 (dim2 m))) (zseq 0 (dim1 m))) (zseq 0 (dim0 m)).
