(** Model of the frequency weighting filters: /repo/sumpf/_data/_filters/_weighting.py.

    Like in Model/Rolloff.v, floating point numbers are exact.  A literal like [2.45] is the quotient of two integers. *)

From Coq Require Import String ZArith List Bool.
From Verif.Model Require Import Py Signal Terms Filter Rolloff.
Import ListNotations.
Open Scope Z_scope.

Section Weighting.
Context {A K : Type}.
Variable M : mathematics A K.
Variable T : arithmetic K A.
Variable junk : K.
Notation O := (m_ops M).
Notation term := (term K A).
Notation filter := (filter K A).

Declare Scope num_scope.
Local Notation "x + y" := (o_add O x y) : num_scope.
Local Notation "x - y" := (o_sub O x y) : num_scope.
Local Notation "x * y" := (o_mul O x y) : num_scope.
Local Notation "x / y" := (o_div O x y) : num_scope.
Delimit Scope num_scope with n.
Notation float := (m_float M).
Notation pi := (m_pi M).
Notation real := (fun x => m_complex M x (o_zero O)).
Notation decimal x y := (float x / float y)%n.

(** The class [Polynomial] itself, not the method [Filter.Polynomial] *)
Definition poly (c : list K) : term := Polynomial c false.
Definition highpass_factor (s : A) : result term := div T (poly [real (float 1); real (float 0)]) (poly [real (float 1); real s]).
Definition lowpass_factor (s : K) : result term := invert T (poly [real (float 1); s]).

(** _weighting.py:55-77.  (In Python, the square root of a negative number would be complex.) *)
Definition c_factors (fr : A) : result (list term) :=
  let fl := m_exp10 M (decimal 15 10) in
  let fh := m_exp10 M (decimal 39 10) in
  let d := m_sqrt M (decimal 5 10) in
  let fr2 := square M fr in
  let fl2 := square M fl in
  let fh2 := square M fh in
  let c := (fl2 * fh2)%n in
  let b := ((fr2 + c / fr2 - d * (fl2 + fh2)) / (float 1 - d))%n in
  let root := m_sqrt M (square M b - float 4 * c)%n in
  let f1 := m_sqrt M ((o_neg O b - root) / float 2)%n in
  let f4 := m_sqrt M ((o_neg O b + root) / float 2)%n in
  let s1 := (float 2 * pi * f1)%n in
  let s4 := (float 2 * pi * f4)%n in
  t1 <- highpass_factor s1 ;;
  t2 <- lowpass_factor (real s1) ;;
  t3 <- highpass_factor s4 ;;
  t4 <- lowpass_factor (real s4) ;;
  Ok [t1; t2; t3; t4].

(** _weighting.py:26-40 *)
Definition a_factors (fr : A) : result (list term) :=
  let fa := m_exp10 M (decimal 245 100) in
  let root5 := (m_sqrt M (float 5) / float 2)%n in
  let f2 := ((decimal 15 10 - root5) * fa)%n in
  let f3 := ((decimal 15 10 + root5) * fa)%n in
  let s2 := (float 2 * pi * f2)%n in
  let s3 := (float 2 * pi * f3)%n in
  t1 <- highpass_factor s2 ;;
  t2 <- highpass_factor s3 ;;
  rest <- c_factors fr ;;
  Ok (t1 :: t2 :: rest).

(** _weighting.py:43-52 *)
Definition b_factors (fr : A) : result (list term) :=
  let f5 := decimal 1585 10 in
  let s5 := (float 2 * pi * f5)%n in
  t <- highpass_factor s5 ;;
  rest <- c_factors fr ;;
  Ok (t :: rest).

(** _weighting.py:80-96 *)
Definition d_factors (fr : A) : result (list term) :=
  let a := decimal 103791848 100 in
  let b := decimal 108076816 100 in
  let c := float 9837328 in
  let d := float 11723776 in
  let e := decimal 7991929 100 in
  let f := float 1345600 in
  let scaled n := (float 2 * pi * m_sqrt M n)%n in
  let u := scaled e in let v := scaled f in let w := scaled b in
  let x := scaled a in let y := scaled d in let z := scaled c in
  t1 <- highpass_factor u ;;
  t2 <- lowpass_factor (real v) ;;
  t3 <- div T (poly [real (float 1); real w; real (square M x)]) (poly [real (float 1); real y; real (square M z)]) ;;
  Ok [t1; t2; t3].

(** _weighting.py:99-117 *)
Definition u_factors (fr : A) : result (list term) :=
  let scaled x y := m_complex M (float 2 * pi * float x)%n (float 2 * pi * float y)%n in
  let s1 := scaled 12200 0 in
  let s3 := scaled 7850 (-8800) in
  let s4 := scaled 7850 8800 in
  let s5 := scaled 2900 (-12150) in
  let s6 := scaled 2900 12150 in
  sequence (map lowpass_factor [s1; s1; s3; s4; s5; s6]).

(** _weighting.py:120-133; [None] is a gain, that is not finite or whose inverse is not finite. *)
Definition transfer_function (generator : A -> result (list term)) : result (option term) :=
  let fr := float 1000 in
  transfer_functions <- generator fr ;;
  let gain := fold_left (fun r t => binary (o_mul (k_ops T)) r (fst (call T junk fr t false false))) transfer_functions (Some (real (float 1))) in
  Ok (match divide T (Some (real (float 1))) gain with
      | Some normalization => Some (Product (Constant normalization :: transfer_functions) false)
      | None => None
      end).
Definition weighting_filter (generator : A -> result (list term)) (label : string) : result (option filter) :=
  t <- transfer_function generator ;;
  Ok (match t with Some t => Some (mk_filter [t] [label]) | None => None end).

(** _weighting.py:136-181 *)
Definition a_weighting : result (option filter) := weighting_filter a_factors "A-weighting".
Definition b_weighting : result (option filter) := weighting_filter b_factors "B-weighting".
Definition c_weighting : result (option filter) := weighting_filter c_factors "C-weighting".
Definition d_weighting : result (option filter) := weighting_filter d_factors "D-weighting".
Definition u_weighting : result (option filter) := weighting_filter u_factors "U-weighting".

End Weighting.
