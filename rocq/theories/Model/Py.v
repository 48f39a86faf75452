(** Python primitives that the modelled code relies on: exceptions, integer
    indexed sequences, the slice protocol.  Nothing in this file is code of
    /repo; it is the part of CPython that /repo/sumpf calls.

    Definitions only; lemmas are in Proofs/PyFacts.v. *)

From Coq Require Import String ZArith List Bool.
Import ListNotations.
Open Scope Z_scope.

(** The exceptions which the modelled functions can raise. *)
Inductive exn :=
| ValueError | TypeError | IndexError | KeyError | RuntimeError
| ZeroDivisionError | ImportError | StructError | AttributeError | OSError
| NameError | SyntaxError | AssertionError
| Hangs (* not an exception: the call does not return *).

(** The outcome of a Python call: a value or an exception. *)
Inductive result (A : Type) : Type :=
| Ok (a : A)
| Err (e : exn).
Arguments Ok {A} a.
Arguments Err {A} e.

Definition bind {A B} (x : result A) (k : A -> result B) : result B :=
  match x with Ok a => k a | Err e => Err e end.

Definition rmap {A B} (f : A -> B) (x : result A) : result B :=
  match x with Ok a => Ok (f a) | Err e => Err e end.

Declare Scope py_scope.
Notation "x <- e ;; k" := (bind e (fun x => k))
  (at level 61, e at next level, right associativity) : py_scope.
Open Scope py_scope.

(** Evaluate a list of computations from left to right, stop at the first exception. *)
Fixpoint sequence {A} (l : list (result A)) : result (list A) :=
  match l with
  | [] => Ok []
  | x :: t => a <- x ;; r <- sequence t ;; Ok (a :: r)
  end.

(** A loop [for x in l: state = f(state, x)] whose body may raise. *)
Fixpoint for_each {A S} (l : list A) (f : S -> A -> result S) (s : S) : result S :=
  match l with
  | [] => Ok s
  | x :: t => s' <- f s x ;; for_each t f s'
  end.

(** ** Sequences with integer indices *)

Definition zlen {A} (l : list A) : Z := Z.of_nat (List.length l).

(** [zth l i] is the element number [i], counted from zero, if there is one. *)
Definition zth {A} (l : list A) (i : Z) : option A :=
  if i <? 0 then None else nth_error l (Z.to_nat i).

Definition ztake {A} (n : Z) (l : list A) : list A := firstn (Z.to_nat n) l.
Definition zdrop {A} (n : Z) (l : list A) : list A := skipn (Z.to_nat n) l.
Definition zrepeat {A} (a : A) (n : Z) : list A := repeat a (Z.to_nat n).

(** [range(start, start+n)] *)
Definition zseq (start n : Z) : list Z :=
  map (fun k => start + Z.of_nat k) (seq 0 (Z.to_nat n)).

Definition zsum (l : list Z) : Z := fold_right Z.add 0 l.
Definition zmaximum (d : Z) (l : list Z) : Z := fold_left Z.max l d.
Definition zminimum (d : Z) (l : list Z) : Z := fold_left Z.min l d.

(** [map2 f [a0;a1;..] [b0;b1;..] = [f a0 b0; f a1 b1; ..]], cut to the shorter list (Python's [zip]). *)
Fixpoint map2 {A B C} (f : A -> B -> C) (l : list A) (m : list B) : list C :=
  match l, m with
  | a :: l', b :: m' => f a b :: map2 f l' m'
  | _, _ => []
  end.

(** ** Slices (CPython: Objects/sliceobject.c, PySlice_Unpack and PySlice_AdjustIndices) *)

Record slice := Slice { sl_start : option Z; sl_stop : option Z; sl_step : option Z }.

(** Clamping of a given bound. *)
Definition adjust_bound (step len i : Z) : Z :=
  if i <? 0 then
    (if i + len <? 0 then (if step <? 0 then -1 else 0) else i + len)
  else
    (if len <=? i then (if step <? 0 then len - 1 else len) else i).

Definition slice_step (s : slice) : Z := match sl_step s with Some k => k | None => 1 end.

Definition slice_first (s : slice) (len : Z) : Z :=
  let step := slice_step s in
  match sl_start s with
  | None => if step <? 0 then len - 1 else 0
  | Some i => adjust_bound step len i
  end.

Definition slice_last (s : slice) (len : Z) : Z :=
  let step := slice_step s in
  match sl_stop s with
  | None => if step <? 0 then -1 else len
  | Some i => adjust_bound step len i
  end.

Definition slice_count (s : slice) (len : Z) : Z :=
  let step := slice_step s in
  let first := slice_first s len in
  let last := slice_last s len in
  if step <? 0 then
    (if last <? first then (first - last - 1) / (- step) + 1 else 0)
  else
    (if first <? last then (last - first - 1) / step + 1 else 0).

(** The list of selected positions. *)
Definition slice_positions (s : slice) (len : Z) : list Z :=
  map (fun k => slice_first s len + k * slice_step s) (zseq 0 (slice_count s len)).

(** Elements of [l] at the given positions; positions outside of the list do not occur for slices. *)
Fixpoint pick {A} (l : list A) (ps : list Z) : list A :=
  match ps with
  | [] => []
  | p :: t => match zth l p with Some a => a :: pick l t | None => pick l t end
  end.

(** [l[s]] with a general slice; a step of zero raises. *)
Definition getslice {A} (l : list A) (s : slice) : result (list A) :=
  if slice_step s =? 0 then Err ValueError
  else Ok (pick l (slice_positions s (zlen l))).

(** Slices with step one, [l[a:b]], where a missing bound is [None]. *)
Definition bounds : Type := option Z * option Z.
Definition between (a b : Z) : bounds := (Some a, Some b).
Definition from (a : Z) : bounds := (Some a, None).
Definition everything : bounds := (None, None).

Definition lower (r : bounds) (len : Z) : Z := slice_first (Slice (fst r) (snd r) None) len.
Definition upper (r : bounds) (len : Z) : Z :=
  Z.max (lower r len) (slice_last (Slice (fst r) (snd r) None) len).

Definition subseq {A} (r : bounds) (l : list A) : list A :=
  ztake (upper r (zlen l) - lower r (zlen l)) (zdrop (lower r (zlen l)) l).

(** Integer indexing [l[i]]. *)
Definition getitem {A} (l : list A) (i : Z) : result A :=
  match zth l (if i <? 0 then i + zlen l else i) with
  | Some a => Ok a
  | None => Err IndexError
  end.
