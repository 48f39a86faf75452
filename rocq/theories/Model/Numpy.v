(** The part of NumPy that /repo/sumpf uses on arrays: shapes, basic slicing,
    slice assignment, broadcasting and element-wise functions with an [out]
    argument.  Not code of /repo.  A two dimensional array is the list of its
    rows together with the number of its columns, so that an array without rows
    still has a shape.

    Simplifications: dtypes and views (aliasing) are not modelled; each write to
    a view is modelled as a write to the array, of which it is a view. *)

From Coq Require Import ZArith List Bool.
From Verif.Model Require Import Py.
Import ListNotations.
Open Scope Z_scope.

Record arr (A : Type) : Type := Arr { rows : list (list A); cols : Z }.
Arguments Arr {A} _ _.
Arguments rows {A} _.
Arguments cols {A} _.

Definition nrows {A} (m : arr A) : Z := zlen (rows m).

(** Well formed: every row has [cols] elements. *)
Definition wf {A} (m : arr A) : Prop :=
  0 <= cols m /\ Forall (fun r => zlen r = cols m) (rows m).

(** The element in row [i] and column [j], if there is one. *)
Definition el {A} (m : arr A) (i j : Z) : option A :=
  match zth (rows m) i with Some r => zth r j | None => None end.

(** [sumpf_internal.allocate_array((r, c))]: _internal/_functions.py:29-43.
    The initial contents are whatever [junk] says (zeros in the real implementation). *)
Definition allocate {A} (junk : Z -> Z -> A) (r c : Z) : result (arr A) :=
  if (r <? 0) || (c <? 0) then Err ValueError
  else Ok (Arr (map (fun i => map (junk i) (zseq 0 c)) (zseq 0 r)) c).

(** [m[r0:r1, c0:c1]] *)
Definition block {A} (m : arr A) (r c : bounds) : arr A :=
  Arr (map (subseq c) (subseq r (rows m))) (upper c (cols m) - lower c (cols m)).

(** [m[i]], a one dimensional array, here an array with one row (which broadcasts in the same way). *)
Definition row {A} (m : arr A) (i : Z) : result (arr A) :=
  r <- getitem (rows m) i ;; Ok (Arr [r] (cols m)).

Definition brow {A} (k : Z) (r : list A) : list A :=
  if zlen r =? k then r else match r with [x] => zrepeat x k | _ => r end.

(** Broadcasting of a one or two dimensional array to the shape [(n, k)]. *)
Definition broadcast {A} (m : arr A) (n k : Z) : result (arr A) :=
  if negb ((cols m =? k) || (cols m =? 1)) then Err ValueError
  else if nrows m =? n then Ok (Arr (map (brow k) (rows m)) k)
  else match rows m with
       | [r] => Ok (Arr (zrepeat (brow k r) n) k)
       | _ => Err ValueError
       end.

(** A scalar operand. *)
Definition scalar {A} (x : A) : arr A := Arr [[x]] 1.

Definition set_row {A} (lo hi : Z) (old new : list A) : list A := ztake lo old ++ new ++ zdrop hi old.

(** [m[r0:r1, c0:c1] = src] *)
Definition set_block {A} (m : arr A) (r c : bounds) (src : arr A) : result (arr A) :=
  let rlo := lower r (nrows m) in
  let rhi := upper r (nrows m) in
  let clo := lower c (cols m) in
  let chi := upper c (cols m) in
  s <- broadcast src (rhi - rlo) (chi - clo) ;;
  Ok (Arr (ztake rlo (rows m)
           ++ map2 (set_row clo chi) (subseq r (rows m)) (rows s)
           ++ zdrop rhi (rows m))
          (cols m)).

(** [m[i, c0:c1] = src] with an integer row index. *)
Definition set_row_block {A} (m : arr A) (i : Z) (c : bounds) (src : arr A) : result (arr A) :=
  let i' := if i <? 0 then i + nrows m else i in
  if (i' <? 0) || (nrows m <=? i') then Err IndexError
  else set_block m (between i' (i' + 1)) c src.

(** [f(a, b)] broadcast to the shape [(n, k)] of the output. *)
Definition ufunc2 {A B C} (f : A -> B -> C) (a : arr A) (b : arr B) (n k : Z) : result (arr C) :=
  a' <- broadcast a n k ;;
  b' <- broadcast b n k ;;
  Ok (Arr (map2 (map2 f) (rows a') (rows b')) k).

(** [f(a, b, out=m[r0:r1, c0:c1])] *)
Definition ufunc2_into {A B C} (f : A -> B -> C) (a : arr A) (b : arr B) (m : arr C) (r c : bounds) : result (arr C) :=
  s <- ufunc2 f a b (upper r (nrows m) - lower r (nrows m)) (upper c (cols m) - lower c (cols m)) ;;
  set_block m r c s.

(** [f(a)] element by element. *)
Definition ufunc1 {A B} (f : A -> B) (a : arr A) : arr B :=
  Arr (map (map f) (rows a)) (cols a).
