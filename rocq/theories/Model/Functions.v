(** Model of the helper functions in /repo/sumpf/_internal/_functions.py and
    /repo/sumpf/_internal/_indexing.py.

    Simplification: a Python float that is used as an index is a rational number
    and the product [i * length] is exact (no floating point rounding before
    [round]); NaN and infinities are left out. *)

From Coq Require Import String ZArith QArith Qround List Bool.
From Verif.Model Require Import Py.
Import ListNotations.
Open Scope Z_scope.

(** _internal/_functions.py:84-106, [sanitize_labels(labels, number)]; [None] is Python's None. *)
Definition sanitize_labels (labels : option (list string)) (number : Z) : list string :=
  match labels with
  | None => zrepeat EmptyString number
  | Some l =>
      if zlen l <? number then l ++ zrepeat EmptyString (number - zlen l)
      else if number <? zlen l then subseq (between 0 number) l
      else l
  end.

(** Python's built-in [round(x)]: to the nearest integer, ties to the even one. *)
Definition py_round (q : Q) : Z :=
  let f := Qfloor q in
  match Qcompare (q - inject_Z f) (1 # 2) with
  | Lt => f
  | Gt => f + 1
  | Eq => if Z.even f then f else f + 1
  end.

(** A number that is used as an index. *)
Inductive num := NInt (z : Z) | NFloat (q : Q).

(** The loop in _internal/_indexing.py:42-44, cut off after [fuel] iterations. *)
Fixpoint index_loop (fuel : nat) (i length : Z) : option Z :=
  if i <? 0 then
    match fuel with
    | O => None
    | S n => index_loop n (i + length) length
    end
  else Some i.

(** _internal/_indexing.py:24-44, [index(i, length)] for a number [i].
    The fuel suffices whenever the loop terminates (Proofs/SliceFacts.v). *)
Definition index (i : num) (length : Z) : result Z :=
  let i := match i with NInt z => z | NFloat q => py_round (q * inject_Z length) end in
  match index_loop (Z.to_nat (- i)) i length with
  | Some r => Ok r
  | None => Err Hangs
  end.

(** _internal/_indexing.py:40-41: a sequence of indices. *)
Definition index_list (l : list num) (length : Z) : result (list Z) :=
  sequence (map (fun i => index i length) l).

(** What can be passed to [[]]: an integer, a float, or a slice of them. *)
Inductive key1 :=
| KNum (n : num)
| KSlice (start stop step : option num).

(** A single key or a tuple of keys. *)
Inductive key := KOne (k : key1) | KTuple (l : list key1).

(** _internal/_indexing.py:62: [index(e, shape[0]) if isinstance(e, float) else e]. *)
Definition slice_entry (e : option num) (length : Z) : result (option Z) :=
  match e with
  | None => Ok None
  | Some (NInt z) => Ok (Some z)
  | Some (NFloat q) => r <- index (NFloat q) length ;; Ok (Some r)
  end.

(** _internal/_indexing.py:56-62, [key_to_slices(key, (length,))] for one dimension. *)
Definition key_to_slice (k : key1) (length : Z) : result slice :=
  match k with
  | KNum (NInt i) => Ok (Slice (Some i) (Some (i + 1)) None)
  | KNum (NFloat q) =>
      i <- index (NFloat q) (length - 1) ;;
      Ok (Slice (Some i) (Some (i + 1)) None)
  | KSlice a b c =>
      a <- slice_entry a length ;;
      b <- slice_entry b length ;;
      c <- slice_entry c length ;;
      Ok (Slice a b c)
  end.

(** _internal/_indexing.py:63-64: tuples of keys, [zip] cuts to the shorter one. *)
Definition keys_to_slices (l : list key1) (shape : list Z) : result (list slice) :=
  sequence (map2 key_to_slice l shape).
