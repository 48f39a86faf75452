(** Model of the predefined filters: /repo/sumpf/_data/_filters/_butterworth.py, _bessel.py, _chebyshev.py, _delay.py and
    _derivative.py, and /repo/sumpf/_data/_filters/_base/_functions.py:24-34 and _base/_iir.py.

    [A] are the real numbers, with which the coefficients are computed, and [K] are the complex numbers of the transfer functions.
    Floating point numbers are exact.  Where Python raises a [ZeroDivisionError], because the cutoff frequency or the order is 0, so does the
    model; the other divisors cannot be 0 in exact arithmetic. *)

From Coq Require Import String ZArith List Bool.
From Verif.Model Require Import Py Signal Terms Filter Fourier.
Import ListNotations.
Open Scope Z_scope.

(** The functions of the modules [math] and [cmath] *)
Record mathematics (A K : Type) := Mathematics {
  m_ops : ops A;
  m_float : Z -> A;
  m_pi : A;
  m_sqrt : A -> A;
  m_cos : A -> A;
  m_sin : A -> A;
  m_asinh : A -> A;
  m_sinh : A -> A;
  m_cosh : A -> A;
  m_exp10 : A -> A;          (* 10.0 ** x *)
  m_complex : A -> A -> K;   (* complex(x, y) *)
  m_real : K -> A;           (* z.real *)
  m_imag : K -> A;           (* z.imag *)
  m_abs : K -> A;            (* abs(z) *)
  m_exp : K -> K             (* cmath.exp *)
}.
Arguments Mathematics {A K}. Arguments m_ops {A K}. Arguments m_float {A K}. Arguments m_pi {A K}. Arguments m_sqrt {A K}. Arguments m_cos {A K}. Arguments m_sin {A K}.
Arguments m_asinh {A K}. Arguments m_sinh {A K}. Arguments m_cosh {A K}. Arguments m_exp10 {A K}. Arguments m_complex {A K}.
Arguments m_real {A K}. Arguments m_imag {A K}. Arguments m_abs {A K}. Arguments m_exp {A K}.

(** [math.factorial]; a negative number raises a [ValueError]. *)
Fixpoint factorial_nat (n : nat) : Z := match n with 0%nat => 1 | S m => Z.of_nat n * factorial_nat m end.
Definition factorial (n : Z) : result Z := if n <? 0 then Err ValueError else Ok (factorial_nat (Z.to_nat n)).

Section Filters.
Context {A K X : Type}.
Variable M : mathematics A K.
Variable T : arithmetic K X.
Notation O := (m_ops M).
Notation term := (term K X).
Notation filter := (filter K X).

Declare Scope num_scope.
Local Notation "x + y" := (o_add O x y) : num_scope.
Local Notation "x - y" := (o_sub O x y) : num_scope.
Local Notation "x * y" := (o_mul O x y) : num_scope.
Local Notation "x / y" := (o_div O x y) : num_scope.
Delimit Scope num_scope with n.
Notation float := (m_float M).
Notation pi := (m_pi M).
Notation real := (fun x => m_complex M x (o_zero O)).

(** [x ** n] for an integer that is not negative *)
Definition power_int (x : A) (n : Z) : A := fold_left (fun y _ => (y * x)%n) (zseq 0 n) (o_one O).
Definition square (x : A) : A := (x * x)%n.

(** A polynomial with real coefficients, as it is made by [Filter.Polynomial] *)
Definition polynomial_ (c : list A) (x : bool) : term := polynomial_factory T (map real c) x.

(** _base/_functions.py:24-34 *)
Definition frequency_scaling (cutoff : A) (highpass : bool) : result A :=
  if highpass then Ok (float 2 * pi * cutoff)%n
  else if o_eqb O cutoff (o_zero O) then Err ZeroDivisionError
  else Ok (float 1 / (float 2 * pi * cutoff))%n.

(** _base/_iir.py:22-60, the constructors of [IIRFilter] and [RolloffFilter].  (The parameters, which can be retrieved with the methods
    [order], [cutoff_frequency] and [is_highpass], are not stored in the model.) *)
Definition rolloff_filter (transfer_function : term) (label : string) : filter := mk_filter [transfer_function] [label].

(** _butterworth.py:26-46 *)
Definition butterworth_factors (k : A) (order : Z) : list term :=
  let k2 := square k in
  if order mod 2 =? 0 then
    map (fun i => let b1 := (float 2 * m_cos M (float (2 * i - 1) * pi / float (2 * order)))%n in
                  polynomial_ [k2; (b1 * k)%n; float 1] false) (zseq 1 (order / 2))
  else
    polynomial_ [k; float 1] false
    :: map (fun i => let b1 := (float 2 * m_cos M (float (i - 1) * pi / float order))%n in
                     polynomial_ [k2; (b1 * k)%n; float 1] false) (zseq 2 ((order + 1) / 2 - 1)).
Definition butterworth (cutoff : A) (order : Z) (highpass : bool) : result term :=
  k <- frequency_scaling cutoff highpass ;;
  p <- product_factory T (butterworth_factors k order) highpass ;;
  invert T p.
(** _butterworth.py:55-66 *)
Definition butterworth_filter (cutoff : A) (order : Z) (highpass : bool) : result filter :=
  t <- butterworth cutoff order highpass ;; Ok (rolloff_filter t "Butterworth").

(** _bessel.py:26-41 *)
Definition bessel (cutoff : A) (order : Z) (highpass : bool) : result term :=
  k <- frequency_scaling cutoff highpass ;;
  f2 <- factorial (2 * order) ;;
  f1 <- factorial order ;;
  let c0 := f2 / (2 ^ order * f1) in
  coefficients <- sequence (map (fun i =>
      let oi := order - i in
      a <- factorial (order + oi) ;;
      b <- factorial i ;;
      d <- factorial oi ;;
      let c := a / (2 ^ oi * b * d) in
      Ok (float c / float c0 * power_int k i)%n) (rev (zseq 1 order))) ;;
  div T (Constant (real (float 1))) (polynomial_ (coefficients ++ [float 1]) highpass).
(** _bessel.py:62-74 *)
Definition bessel_filter (cutoff : A) (order : Z) (highpass : bool) : result filter :=
  t <- bessel cutoff order highpass ;; Ok (rolloff_filter t "Bessel").

(** _chebyshev.py:27-58; [abs_ripple] is [abs(ripple)]. *)
Definition chebyshev1_factors (k : A) (abs_ripple : A) (order : Z) : list term :=
  let k2 := square k in
  let g := (m_asinh M (float 1 / m_sqrt M (m_exp10 M (abs_ripple / float 10) - float 1)) / float order)%n in
  let sinhg := m_sinh M g in
  let cosh2g := square (m_cosh M g) in
  if order mod 2 =? 0 then
    let pb2o := (pi / float (2 * order))%n in
    map (fun i => let a2 := (float 1 / (cosh2g - square (m_cos M (float (2 * i - 1) * pb2o))))%n in
                  let a1 := (float 2 * a2 * sinhg * m_cos M (float (2 * i - 1) * pb2o))%n in
                  polynomial_ [(a2 * k2)%n; (a1 * k)%n; float 1] false) (zseq 1 (order / 2))
  else
    let pbo := (pi / float order)%n in
    let a1 := (float 1 / sinhg)%n in
    polynomial_ [(a1 * k)%n; float 1] false
    :: map (fun i => let a2 := (float 1 / (cosh2g - square (m_cos M (float (i - 1) * pbo))))%n in
                     let a1 := (float 2 * a2 * sinhg * m_cos M (float (i - 1) * pbo))%n in
                     polynomial_ [(a2 * k2)%n; (a1 * k)%n; float 1] false) (zseq 2 ((order + 1) / 2 - 1)).
Definition chebyshev1 (cutoff ripple : A) (order : Z) (highpass : bool) : result term :=
  k <- frequency_scaling cutoff highpass ;;
  if order =? 0 then Err ZeroDivisionError
  else
    p <- product_factory T (chebyshev1_factors k (o_abs O ripple) order) highpass ;;
    invert T p.
(** _chebyshev.py:126-149 *)
Definition chebyshev1_filter (cutoff ripple : A) (order : Z) (highpass : bool) : result filter :=
  t <- (if o_eqb O ripple (o_zero O) then butterworth cutoff order highpass else chebyshev1 cutoff ripple order highpass) ;;
  Ok (rolloff_filter t "Chebyshev 1").

(** _chebyshev.py:61-102 *)
Local Notation "x +c y" := (o_add (k_ops T) x y) (at level 50, left associativity).
Local Notation "x *c y" := (o_mul (k_ops T) x y) (at level 40, left associativity).
Local Notation "x /c y" := (o_div (k_ops T) x y) (at level 40, left associativity).
Definition chebyshev2_factors (k : A) (abs_ripple : A) (order : Z) : result (list term) :=
  let l := m_exp10 M (abs_ripple / float 20)%n in
  let g := (m_asinh M (m_sqrt M (square l - float 1)) / float order)%n in
  let sinhg := m_sinh M g in
  let coshgj := m_complex M (o_zero O) (m_cosh M g) in
  let pb2o := (pi / float (2 * order))%n in
  let start := if order mod 2 =? 0 then 1 else 2 in
  first <- (if order mod 2 =? 0 then Ok [] else
            let a1 := (sinhg * k)%n in
            t <- div T (Constant (real (float 1))) (polynomial_ [a1; float 1] false) ;; Ok [t]) ;;
  indices <- range start order 2 ;;
  rest <- sequence (map (fun i =>
      let w := o_neg (k_ops T) (m_exp M (m_complex M (o_zero O) (float i * pb2o)%n)) in
      let p := real (float 1) /c (real (sinhg * m_real M w)%n +c coshgj *c real (m_imag M w)) /c real k in
      let a0 := square (m_abs M p) in
      let a1 := (float (-2) * m_real M p / a0)%n in
      let a2 := (float 1 / a0)%n in
      let z := m_complex M (o_zero O) (float 1) /c real (m_sin M (float i * pb2o)%n) /c real k in
      let b0 := square (m_abs M z) in
      let b1 := (float 2 * m_real M z / b0)%n in
      let b2 := (float 1 / b0)%n in
      div T (polynomial_ [b2; b1; float 1] false) (polynomial_ [a2; a1; float 1] false)) indices) ;;
  Ok (first ++ rest).
Definition chebyshev2 (cutoff ripple : A) (order : Z) (highpass : bool) : result term :=
  k <- frequency_scaling cutoff highpass ;;
  if order =? 0 then Err ZeroDivisionError
  else
    l <- chebyshev2_factors k (o_abs O ripple) order ;;
    product_factory T l highpass.
(** _chebyshev.py:172-191 *)
Definition chebyshev2_filter (cutoff ripple : A) (order : Z) (highpass : bool) : result filter :=
  t <- chebyshev2 cutoff ripple order highpass ;; Ok (rolloff_filter t "Chebyshev 2").

(** _delay.py:27-33 and _derivative.py:30-33 *)
Definition delay_filter (delay : A) : filter := mk_filter [exp_factory T (real (o_neg O delay)) false] ["Delay"].
Definition derivative_filter : filter := mk_filter [polynomial_ [float 1; float 0] false] ["Derivative"].

End Filters.
