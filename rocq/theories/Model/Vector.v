(** The part of NumPy that /repo/sumpf uses on one dimensional arrays.  Not code of /repo.
    A one dimensional array is a list; writing to a view is writing to the array. *)

From Coq Require Import ZArith List Bool.
From Verif.Model Require Import Py.
Import ListNotations.
Open Scope Z_scope.

(** A freshly allocated array, the contents of which are whatever [junk] says. *)
Definition vector {A} (junk : Z -> A) (n : Z) : result (list A) :=
  if n <? 0 then Err ValueError else Ok (map junk (zseq 0 n)).

(** [v[a:b] = src], where an array with one element is repeated. *)
Definition vset {A} (v : list A) (b : bounds) (src : list A) : result (list A) :=
  let lo := lower b (zlen v) in
  let hi := upper b (zlen v) in
  if zlen src =? hi - lo then Ok (ztake lo v ++ src ++ zdrop hi v)
  else match src with
       | [x] => Ok (ztake lo v ++ zrepeat x (hi - lo) ++ zdrop hi v)
       | _ => Err ValueError
       end.

(** [v[a:b] = x] for a number [x] *)
Definition vfill {A} (v : list A) (b : bounds) (x : A) : list A :=
  let lo := lower b (zlen v) in
  let hi := upper b (zlen v) in
  ztake lo v ++ zrepeat x (hi - lo) ++ zdrop hi v.

(** [v[i] = x] *)
Definition vput {A} (v : list A) (i : Z) (x : A) : result (list A) :=
  let i' := if i <? 0 then i + zlen v else i in
  if (i' <? 0) || (zlen v <=? i') then Err IndexError
  else Ok (ztake i' v ++ [x] ++ zdrop (i' + 1) v).

(** [f(v, w)] element by element; arrays with one element are repeated. *)
Definition vmap2 {A B C} (f : A -> B -> C) (v : list A) (w : list B) : result (list C) :=
  if zlen v =? zlen w then Ok (map2 f v w)
  else match v, w with
       | [x], _ => Ok (map (f x) w)
       | _, [y] => Ok (map (fun x => f x y) v)
       | _, _ => Err ValueError
       end.
