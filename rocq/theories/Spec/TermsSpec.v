(** Specification vocabulary for transfer functions: the value of a term as a function of the frequency variable. *)

From Coq Require Import ZArith List Bool Field_theory.
From Verif.Model Require Import Py Signal Terms.
Import ListNotations.
Open Scope Z_scope.

Section Terms.
Context {K X : Type}.
Variable A : arithmetic K X.
Notation O := (k_ops A).
Notation term := (term K X).

Definition inverse (x : K) : K := o_div O (o_one O) x.

(** [c0 * s^n + c1 * s^(n-1) + ... + cn] *)
Fixpoint power (s : K) (n : nat) : K := match n with 0%nat => o_one O | S n => o_mul O s (power s n) end.
Fixpoint polynomial (c : list K) (s : K) : K :=
  match c with [] => o_zero O | a :: t => o_add O (o_mul O a (power s (List.length t))) (polynomial t s) end.

(** Operations on values, that are defined if their operands are (and if the divisor is not 0). *)
Definition lift (f : K -> K) (x : option K) : option K := match x with Some x => Some (f x) | None => None end.
Definition lift2 (f : K -> K -> K) (x y : option K) : option K := match x, y with Some x, Some y => Some (f x y) | _, _ => None end.
Definition quotient (x y : option K) : option K :=
  match x, y with Some x, Some y => if o_eqb O y (o_zero O) then None else Some (o_div O x y) | _, _ => None end.

(** The value of the term [t] for the frequency [f], if [s] is the value of the frequency variable.  A transformed term has [1 / s]
    for [s].  The frequency variable has no influence on [Bands].  A product without factors is 0. *)
Fixpoint value (f : X) (s : K) (t : term) : option K :=
  let s := if transform t then inverse s else s in
  match t with
  | Constant v => Some v
  | Polynomial c _ => Some (polynomial c s)
  | Exp c _ => Some (k_exp A (o_mul O c s))
  | Bands xs ys i e => bands_at A f xs ys i e
  | Absolute v _ => lift (o_abs O) (value f s v)
  | Negative v _ => lift (o_neg O) (value f s v)
  | Sum l _ => fold_right (fun t r => lift2 (o_add O) (value f s t) r) (Some (o_zero O)) l
  | Difference m u _ => lift2 (o_sub O) (value f s m) (value f s u)
  | Product [] _ => Some (o_zero O)
  | Product l _ => fold_right (fun t r => lift2 (o_mul O) (value f s t) r) (Some (o_one O)) l
  | Quotient a b _ => quotient (value f s a) (value f s b)
  end.

(** The interpolations, whose results are 0 or the value at one of the supporting points. *)
Definition pointwise (i : interpolation) : Prop := i = Zero \/ i = StairsLin \/ i = StairsLog.

(** Exact arithmetic: a field with an absolute value and an exponential function. *)
Record exact_arithmetic : Prop := {
  exact_field : field_theory (o_zero O) (o_one O) (o_add O) (o_mul O) (o_sub O) (o_neg O) (o_div O) inverse eq;
  exact_eqb : forall x y, o_eqb O x y = true <-> x = y;
  exact_x_eqb : forall x y, x_eqb A x y = true <-> x = y;
  exact_exp_zero : k_exp A (o_zero O) = o_one O;
  exact_exp_neg : forall x, o_mul O (k_exp A (o_neg O x)) (k_exp A x) = o_one O;
  exact_abs_zero : o_abs O (o_zero O) = o_zero O;
  exact_abs_abs : forall x, o_abs O (o_abs O x) = o_abs O x;
  exact_pointwise : forall i f xs, pointwise i -> xs <> [] ->
    (forall ys, zlen ys = zlen xs -> interpolate A i f xs ys = Some (o_zero O)) \/
    (exists k, 0 <= k < zlen xs /\ forall ys, zlen ys = zlen xs -> interpolate A i f xs ys = zth ys k)
}.

(** All of the objects in a term fulfil a condition. *)
Fixpoint every (P : term -> Prop) (t : term) : Prop :=
  P t /\
  match t with
  | Constant _ | Polynomial _ _ | Exp _ _ | Bands _ _ _ _ => True
  | Absolute v _ | Negative v _ => every P v
  | Sum l _ | Product l _ => fold_right (fun t Q => every P t /\ Q) True l
  | Difference a b _ | Quotient a b _ => every P a /\ every P b
  end.

(** What the constructors and the operators make of proper parameters: polynomials have coefficients and bands have different
    supporting points with one value each, and one of the interpolations above. *)
Definition proper (t : term) : Prop :=
  match t with
  | Polynomial c _ => c <> []
  | Bands xs ys i e => xs <> [] /\ NoDup xs /\ zlen ys = zlen xs /\ pointwise i /\ pointwise e
  | _ => True
  end.

(** No lowpass-to-highpass transform *)
Definition untransformed (t : term) : Prop := transform t = false.

(** No difference *)
Definition no_difference (t : term) : Prop := match t with Difference _ _ _ => False | _ => True end.

End Terms.
