(** Model of the terms, from which transfer functions are built: /repo/sumpf/_data/_filters/_base/_terms/_base.py,
    _primitive.py, _unary.py and _binary.py, and of the frequency variable: /repo/sumpf/_data/_filters/_base/_s.py.

    The values of transfer functions are of a type [K] with the arithmetic [k_ops].  Values that are not finite (inf and nan)
    are not distinguished from each other: they are [None].  Frequencies are of a type [X]. *)

From Coq Require Import String ZArith List Bool.
From Verif.Model Require Import Py Signal.
Import ListNotations.
Open Scope Z_scope.

(** _internal/_enums.py:201-238, the enumeration [Interpolations] *)
Inductive interpolation := Zero | One | Linear | Logarithmic | LogX | LogY | StairsLin | StairsLog.

Definition interpolation_eqb (i j : interpolation) : bool :=
  match i, j with
  | Zero, Zero | One, One | Linear, Linear | Logarithmic, Logarithmic | LogX, LogX | LogY, LogY | StairsLin, StairsLin | StairsLog, StairsLog => true
  | _, _ => false
  end.

(** The arithmetic of the transfer functions. *)
Record arithmetic (K X : Type) := Arithmetic {
  k_ops : ops K;
  k_exp : K -> K;                (* numpy.exp *)
  x_ltb : X -> X -> bool;        (* the comparison of frequencies *)
  x_eqb : X -> X -> bool;
  s_of : X -> K;                 (* 2j * pi * f: _s.py:47 *)
  interpolate : interpolation -> X -> list X -> list K -> option K   (* sumpf_internal.interpolation.get(flag)(x, xs, ys) *)
}.
Arguments k_ops {K X}. Arguments k_exp {K X}. Arguments x_ltb {K X}. Arguments x_eqb {K X}. Arguments s_of {K X}. Arguments interpolate {K X}.

(** The classes of terms: _primitive.py:29-52, 168-208, 312-345, 388-431, _unary.py:25-55, 109-139, _binary.py:28-69, 141-183,
    266-306, 386-421.  [Constant] and [Bands] have the attribute [transform] as well, but it is always [False]. *)
Inductive term (K X : Type) :=
| Constant (value : K)
| Polynomial (coefficients : list K) (transform : bool)
| Exp (coefficient : K) (transform : bool)
| Bands (xs : list X) (ys : list K) (inter extra : interpolation)
| Absolute (value : term K X) (transform : bool)
| Negative (value : term K X) (transform : bool)
| Sum (summands : list (term K X)) (transform : bool)
| Difference (minuend subtrahend : term K X) (transform : bool)
| Product (factors : list (term K X)) (transform : bool)
| Quotient (numerator denominator : term K X) (transform : bool).
Arguments Constant {K X}. Arguments Polynomial {K X}. Arguments Exp {K X}. Arguments Bands {K X}. Arguments Absolute {K X}.
Arguments Negative {K X}. Arguments Sum {K X}. Arguments Difference {K X}. Arguments Product {K X}. Arguments Quotient {K X}.

(** The attribute [transform] *)
Definition transform {K X} (t : term K X) : bool :=
  match t with
  | Constant _ | Bands _ _ _ _ => false
  | Polynomial _ x | Exp _ x | Absolute _ x | Negative _ x | Sum _ x | Difference _ _ x | Product _ x | Quotient _ _ x => x
  end.

(** The number of objects in a term *)
Fixpoint size {K X} (t : term K X) : nat :=
  match t with
  | Constant _ | Polynomial _ _ | Exp _ _ | Bands _ _ _ _ => 1
  | Absolute v _ | Negative v _ => S (size v)
  | Sum l _ | Product l _ => S (fold_right (fun t n => size t + n)%nat 0%nat l)
  | Difference a b _ | Quotient a b _ => S (size a + size b)
  end%nat.

(** An upper bound for the depth of the recursion in the operators of a term *)
Fixpoint weight {K X} (t : term K X) : nat :=
  match t with
  | Constant _ | Polynomial _ _ | Exp _ _ | Bands _ _ _ _ => 2
  | Absolute v _ => 2 + weight v
  | Negative v _ => 4 + weight v
  | Sum l _ | Product l _ => 2 + fold_right (fun t n => weight t + n)%nat 0%nat l
  | Difference a b _ | Quotient a b _ => 2 + (weight a + weight b)
  end%nat.

Section Terms.
Context {K X : Type}.
Variable A : arithmetic K X.
Notation O := (k_ops A).
Notation term := (term K X).

Definition is_null (x : K) : bool := o_eqb O x (o_zero O).

(** ** Evaluation *)

(** [numpy.polyval(p, x)] *)
Definition polyval (p : list K) (x : K) : K := fold_left (fun y pv => o_add O (o_mul O y x) pv) p (o_zero O).

(** The value of [s()] at one frequency, for an instance of [S] or of [TransformedS]: _s.py:40-47 and 95-109.
    Where the frequency is 0, the memory for [1 / s] is not initialized and contains [junk], and the sample is noted as invalid. *)
Definition get_s (junk : K) (f : X) (transformed invalid : bool) : K * bool :=
  let s := s_of A f in
  if transformed then if is_null s then (junk, true) else (o_div O (o_one O) s, invalid)
  else (s, invalid).

(** _s.py:57-68 and 119-129, [fix] *)
Definition fix_sample (invalid : bool) (r : option K) : option K := if invalid then Some (o_zero O) else r.

Definition unary (f : K -> K) (x : option K) : option K := match x with Some x => Some (f x) | None => None end.
Definition binary (f : K -> K -> K) (x y : option K) : option K := match x, y with Some x, Some y => Some (f x y) | _, _ => None end.
(** [numpy.divide] *)
Definition divide (x y : option K) : option K :=
  match x, y with Some x, Some y => if is_null y then None else Some (o_div O x y) | _, _ => None end.

(** _primitive.py:433-460, [Bands._compute] at one frequency *)
Definition bands_at (f : X) (xs : list X) (ys : list K) (inter extra : interpolation) : option K :=
  match xs with
  | [] => Some (o_zero O)
  | x0 :: _ => if x_ltb A f x0 || x_ltb A (last xs x0) f then interpolate A extra f xs ys else interpolate A inter f xs ys
  end.

(** _base.py:49-60, [Term.__call__], and the methods [_compute] of the classes.  The result is the sample at the frequency [f].
    [transformed] says whether [s] is an instance of [TransformedS] and [invalid] whether the sample has been noted
    as invalid before and afterwards. *)
Fixpoint call (junk : K) (f : X) (t : term) (transformed invalid : bool) : option K * bool :=
  let transformed := xorb transformed (transform t) in
  let '(r, invalid) :=
    match t with
    | Constant v => let '(_, invalid) := get_s junk f transformed invalid in (Some v, invalid)
    | Polynomial c _ => let '(s, invalid) := get_s junk f transformed invalid in (Some (polyval c s), invalid)
    | Exp c _ => let '(s, invalid) := get_s junk f transformed invalid in (Some (k_exp A (o_mul O c s)), invalid)
    | Bands xs ys i e => (bands_at f xs ys i e, invalid)
    | Absolute v _ => let '(r, invalid) := call junk f v transformed invalid in (unary (o_abs O) r, invalid)
    | Negative v _ => let '(r, invalid) := call junk f v transformed invalid in (unary (o_neg O) r, invalid)
    | Sum [] _ => let '(_, invalid) := get_s junk f transformed invalid in (Some (o_zero O), invalid)
    | Sum (first :: rest) _ =>
        fold_left (fun acc a => let '(r, invalid) := acc in let '(x, invalid) := call junk f a transformed invalid in (binary (o_add O) r x, invalid))
          rest (call junk f first transformed invalid)
    | Difference m s _ =>
        let '(x, invalid) := call junk f m transformed invalid in
        let '(y, invalid) := call junk f s transformed invalid in
        (binary (o_sub O) x y, invalid)
    | Product [] _ => let '(_, invalid) := get_s junk f transformed invalid in (Some (o_zero O), invalid)
    | Product (first :: rest) _ =>
        fold_left (fun acc a => let '(r, invalid) := acc in let '(x, invalid) := call junk f a transformed invalid in (binary (o_mul O) r x, invalid))
          rest (call junk f first transformed invalid)
    | Quotient n d _ =>
        let '(x, invalid) := call junk f n transformed invalid in
        let '(y, invalid) := call junk f d transformed invalid in
        (divide x y, invalid)
    end in
  (fix_sample invalid r, invalid).

(** ** Comparison *)

(** [numpy.not_equal(a, b).any()].  (Arrays of different lengths, neither of which is 1, raise an exception.) *)
Definition arrays_differ {Y} (eqb : Y -> Y -> bool) (a b : list Y) : bool :=
  if zlen a =? zlen b then existsb (fun p => negb (eqb (fst p) (snd p))) (combine a b)
  else match a, b with
       | [x], _ => existsb (fun y => negb (eqb x y)) b
       | _, [y] => existsb (fun x => negb (eqb x y)) a
       | _, _ => true
       end.

(** [numpy.array_equal] *)
Definition array_equal {Y} (eqb : Y -> Y -> bool) (a b : list Y) : bool :=
  (zlen a =? zlen b) && forallb (fun p => eqb (fst p) (snd p)) (combine a b).

(** [is_zero] and [__eq__] call each other: _base.py:72-80, 111-113, _primitive.py:71-79, 89-97, 220-231, 249-257, 365-371, 471-479,
    509-518, _unary.py:66-74, 86-92, 150-158, 170-176, _binary.py:87-98, 110-119, 196-208, 223-231, 324-338, 350-359, 436-444,
    459-467.  The recursion is cut off after [n] calls. *)
Fixpoint is_zero_n (n : nat) (t : term) {struct n} : bool :=
  match n with
  | 0%nat => false
  | S n =>
      match t with
      | Constant v => is_null v
      | Polynomial c _ => forallb is_null c
      | Exp _ _ => false
      | Bands xs ys _ _ => (zlen xs =? 0) || forallb is_null ys
      | Absolute v _ | Negative v _ => is_zero_n n v
      | Sum l _ => forallb (is_zero_n n) l
      | Difference m s _ => equal_n n m s || (is_zero_n n m && is_zero_n n s)
      | Product [] _ => true
      | Product l _ => existsb (is_zero_n n) l
      | Quotient a _ _ => is_zero_n n a
      end
  end
with equal_n (n : nat) (t u : term) {struct n} : bool :=
  match n with
  | 0%nat => false
  | S n =>
      match t, u with
      | Constant v, Constant w => (is_null v && is_null w) || o_eqb O v w
      | Constant v, _ => is_null v && is_zero_n n u
      | Polynomial c x, Polynomial d y => (zlen c =? zlen d) && negb (arrays_differ (o_eqb O) c d) && Bool.eqb x y
      | Exp c x, Exp d y => o_eqb O c d && Bool.eqb x y
      | Bands xs ys i e, Bands xs' ys' i' e' =>
          interpolation_eqb i i' && interpolation_eqb e e' && negb (arrays_differ (x_eqb A) xs xs') && negb (arrays_differ (o_eqb O) ys ys')
      | Absolute v x, Absolute w y | Negative v x, Negative w y => equal_n n v w && Bool.eqb x y
      | Sum l x, Sum m y | Product l x, Product m y =>
          (zlen l =? zlen m) && forallb (fun p => equal_n n (fst p) (snd p)) (combine l m) && Bool.eqb x y
      | Difference a b x, Difference c d y | Quotient a b x, Quotient c d y => equal_n n a c && equal_n n b d && Bool.eqb x y
      | _, _ => false
      end
  end.

Definition is_zero (t : term) : bool := is_zero_n (size t) t.
Definition equal (t u : term) : bool := equal_n (size t + size u) t u.

(** ** Operators and factories *)

(** [numpy.polyadd] and [numpy.polysub]: the shorter array is padded with zeros at the front. *)
Definition poly_pad (a : list K) (n : Z) : list K := zrepeat (o_zero O) (n - zlen a) ++ a.
Definition poly2 (op : K -> K -> K) (a b : list K) : list K :=
  let n := Z.max (zlen a) (zlen b) in map2 op (poly_pad a n) (poly_pad b n).

(** [coefficients[-1] = op(coefficients[-1], x)] *)
Fixpoint at_last (op : K -> K -> K) (c : list K) (x : K) : list K :=
  match c with
  | [] => []
  | [y] => [op y x]
  | y :: t => y :: at_last op t x
  end.

(** _primitive.py:172-198 *)
Fixpoint drop_zeros (c : list K) : list K :=
  match c with
  | [] => []
  | x :: t => if is_null x then drop_zeros t else c
  end.
Definition polynomial_factory (c : list K) (x : bool) : term :=
  match drop_zeros c with
  | [] => Constant (o_zero O)
  | [v] => Constant v
  | c => Polynomial c x
  end.

(** _primitive.py:318-336 *)
Definition exp_factory (c : K) (x : bool) : term := if is_null c then Constant (o_one O) else Exp c x.

(** _primitive.py:394-431 *)
Definition bands_factory (xs : list X) (ys : list K) (i e : interpolation) : term :=
  Bands xs ys i (match e with StairsLog => StairsLin | _ => e end).

(** _primitive.py:547-550 *)
Definition non_negative (i : interpolation) : bool := match i with One | Logarithmic | LogY => true | _ => false end.

(** The methods [__abs__]: _base.py:125-132, _primitive.py:107-113, 531-540, _unary.py:94-100 *)
Definition abs_ (t : term) : term :=
  match t with
  | Constant v => Constant (o_abs O v)
  | Bands xs ys i e => Bands xs (map (o_abs O) ys) i e
  | Absolute _ _ => t
  | _ => Absolute t false
  end.

(** Whether the operators of [Bands] process the values at the supporting points: _primitive.py:561-564 *)
Definition same_bands (t u : term) : option (list X * list K * list K * interpolation * interpolation) :=
  match t, u with
  | Bands xs ys i e, Bands xs' ys' i' e' =>
      if array_equal (x_eqb A) xs xs' && interpolation_eqb i i' && interpolation_eqb e e' then Some (xs, ys, ys', i, e) else None
  | _, _ => None
  end.

(** _binary.py:145-172; [inv] and [neg] are the methods [invert_transform] and [__neg__] of the parameters *)
Definition difference_factory_ (inv neg : term -> result term) (m s : term) (x : bool) : result term :=
  if is_zero s then
    if is_zero m then Ok (Constant (o_zero O))
    else if x then inv m else Ok m
  else if is_zero m then neg s
  else if equal m s then Ok (Constant (o_zero O))
  else Ok (Difference m s x).

(** _binary.py:32-60 *)
Definition sum_factory_ (inv : term -> result term) (add : term -> term -> result term) (l : list term) (x : bool) : result term :=
  match filter (fun s => negb (is_zero s)) l with
  | [] => Ok (Constant (o_zero O))
  | [a] => if x then inv a else Ok a
  | [a; b] => if x then a <- inv a ;; b <- inv b ;; add a b else add a b
  | l => Ok (Sum l x)
  end.

(** _binary.py:270-297 *)
Definition product_factory_ (inv : term -> result term) (mul : term -> term -> result term) (l : list term) (x : bool) : result term :=
  if (zlen l =? 0) || existsb is_zero l then Ok (Constant (o_zero O))
  else match l with
       | [a] => if x then inv a else Ok a
       | [a; b] => if x then a <- inv a ;; b <- inv b ;; mul a b else mul a b
       | l => Ok (Product l x)
       end.

(** _binary.py:390-410 *)
Definition quotient_factory (a b : term) (x : bool) : term :=
  if is_zero a then Constant (o_zero O)
  else if equal a b then Constant (o_one O)
  else Quotient a b x.

(** The methods [invert_transform] (_base.py:82-89, _primitive.py:64-69, 462-469), [__neg__] (_base.py:134-140, _primitive.py:115-120,
    542-557, _unary.py:178-186, _binary.py:233-240), [__add__] (_base.py:142-145, _primitive.py:122-129, 259-272, 559-570,
    _binary.py:121-132, 242-248) and [__mul__] (_base.py:152-155, _primitive.py:140-151, 289-295, 585-596, _binary.py:361-377) call
    each other.  The recursion is cut off after [n] calls. *)
Fixpoint inv (n : nat) (t : term) {struct n} : result term :=
  match n with
  | 0%nat => Err Hangs
  | S n =>
      match t with
      | Constant _ | Bands _ _ _ _ => Ok t
      | Polynomial c x => Ok (polynomial_factory c (negb x))
      | Exp c x => Ok (exp_factory c (negb x))
      | Absolute v x => if negb x then v <- inv n v ;; Ok (abs_ v) else Ok (abs_ v)
      | Negative v x => if negb x then v <- inv n v ;; neg n v else neg n v
      | Sum l x => sum_factory_ (inv n) (add n) l (negb x)
      | Difference m s x => difference_factory_ (inv n) (neg n) m s (negb x)
      | Product l x => product_factory_ (inv n) (mul n) l (negb x)
      | Quotient a b x => Ok (quotient_factory a b (negb x))
      end
  end
with neg (n : nat) (t : term) {struct n} : result term :=
  match n with
  | 0%nat => Err Hangs
  | S n =>
      match t with
      | Constant v => Ok (Constant (o_neg O v))
      | Bands xs ys i e =>
          if non_negative i || non_negative e then Ok (Difference (Constant (o_zero O)) t false)
          else Ok (Bands xs (map (o_neg O) ys) i e)
      | Negative v x => if x then inv n v else Ok v
      | Difference m s x => Ok (Difference s m x)
      | _ => Ok (Negative t false)
      end
  end
with add (n : nat) (t u : term) {struct n} : result term :=
  match n with
  | 0%nat => Err Hangs
  | S n =>
      match t with
      | Constant v =>
          if is_null v then Ok u
          else match u with Constant w => Ok (Constant (o_add O v w)) | _ => Ok (Sum [t; u] false) end
      | Polynomial c x =>
          match u with
          | Polynomial d y => if Bool.eqb x y then Ok (Polynomial (poly2 (o_add O) c d) x) else Ok (Sum [t; u] false)
          | Constant w => if zlen c =? 0 then neg n u else Ok (Polynomial (at_last (o_add O) c w) x)
          | _ => Ok (Sum [t; u] false)
          end
      | Bands _ _ _ _ =>
          match same_bands t u with
          | Some (xs, ys, ys', i, e) => Ok (Bands xs (map2 (o_add O) ys ys') i e)
          | None => Ok (Sum [t; u] false)
          end
      | Sum [] _ => Ok u
      | Sum l x =>
          match u with
          | Sum m y => if Bool.eqb x y then Ok (Sum (l ++ m) x) else l <- (if x then sequence (map (inv n) l) else Ok l) ;; Ok (Sum (l ++ [u]) false)
          | _ => l <- (if x then sequence (map (inv n) l) else Ok l) ;; Ok (Sum (l ++ [u]) false)
          end
      | Difference m s x =>
          u <- (if x then inv n u else Ok u) ;;
          m <- add n m u ;;
          Ok (Difference m s x)
      | _ => Ok (Sum [t; u] false)
      end
  end
with mul (n : nat) (t u : term) {struct n} : result term :=
  match n with
  | 0%nat => Err Hangs
  | S n =>
      match t with
      | Constant v =>
          if is_null v then Ok t
          else if o_eqb O v (o_one O) then Ok u
          else if o_eqb O v (o_neg O (o_one O)) then neg n u
          else match u with Constant w => Ok (Constant (o_mul O v w)) | _ => Ok (Product [t; u] false) end
      | Polynomial c x =>
          match u with
          | Constant w => Ok (Polynomial (map (fun a => o_mul O a w) c) x)
          | _ => Ok (Product [t; u] false)
          end
      | Bands _ _ _ _ =>
          match same_bands t u with
          | Some (xs, ys, ys', i, e) => Ok (Bands xs (map2 (o_mul O) ys ys') i e)
          | None => Ok (Product [t; u] false)
          end
      | Product l x =>
          if (zlen l =? 0) || is_zero u then Ok (Constant (o_zero O))
          else
            match u with
            | Product m y =>
                if Bool.eqb x y then Ok (Product (l ++ m) x) else m <- sequence (map (inv n) m) ;; Ok (Product (l ++ m) x)
            | _ => l <- (if x then sequence (map (inv n) l) else Ok l) ;; Ok (Product (l ++ [u]) false)
            end
      | _ => Ok (Product [t; u] false)
      end
  end.

(** The methods [__sub__]: _base.py:147-150, _primitive.py:131-138, 274-287, 572-583, _binary.py:250-256 *)
Definition sub (n : nat) (t u : term) : result term :=
  match t with
  | Constant v =>
      if is_null v then neg n u
      else match u with Constant w => Ok (Constant (o_sub O v w)) | _ => Ok (Difference t u false) end
  | Polynomial c x =>
      match u with
      | Polynomial d y => if Bool.eqb x y then Ok (Polynomial (poly2 (o_sub O) c d) x) else Ok (Difference t u false)
      | Constant w => if zlen c =? 0 then neg n u else Ok (Polynomial (at_last (o_sub O) c w) x)
      | _ => Ok (Difference t u false)
      end
  | Bands _ _ _ _ =>
      match same_bands t u with
      | Some (xs, ys, ys', i, e) => Ok (Bands xs (map2 (o_sub O) ys ys') i e)
      | None => Ok (Difference t u false)
      end
  | Difference m s x =>
      u <- (if x then inv n u else Ok u) ;;
      s <- add n s u ;;
      Ok (Difference m s x)
  | _ => Ok (Difference t u false)
  end.

(** The methods [__truediv__]: _base.py:157-160, _primitive.py:153-160, 297-303, 598-609.  NumPy divides arrays by zero without
    raising an exception, which yields values that are not finite; the model raises one. *)
Definition div (t u : term) : result term :=
  match t, u with
  | Constant v, _ =>
      if is_null v then Ok t
      else match u with
           | Constant w => if is_null w then Err ZeroDivisionError else Ok (Constant (o_div O v w))
           | _ => Ok (Quotient t u false)
           end
  | Polynomial c x, Constant w => if is_null w then Err ZeroDivisionError else Ok (Polynomial (map (fun a => o_div O a w) c) x)
  | Bands _ _ _ _, Bands _ _ _ _ =>
      match same_bands t u with
      | Some (xs, ys, ys', i, e) =>
          if existsb is_null ys' then Err ZeroDivisionError else Ok (Bands xs (map2 (o_div O) ys ys') i e)
      | None => Ok (Quotient t u false)
      end
  | _, _ => Ok (Quotient t u false)
  end.

(** The methods [__invert__]: _base.py:115-123, _primitive.py:99-105, 373-379, 520-529, _binary.py:469-477; with the same remark *)
Definition invert (t : term) : result term :=
  match t with
  | Constant v => if is_null v then Err ZeroDivisionError else Ok (Constant (o_div O (o_one O) v))
  | Exp c x => Ok (Exp (o_neg O c) x)
  | Bands xs ys i e => if existsb is_null ys then Err ZeroDivisionError else Ok (Bands xs (map (o_div O (o_one O)) ys) i e)
  | Quotient a b x => Ok (Quotient b a x)
  | _ => Ok (Quotient (Constant (o_one O)) t false)
  end.

(** The methods without the cutoff: the recursion is never deeper than this (see TermFuel.v). *)
Definition invert_transform (t : term) : result term := inv (S (weight t)) t.
Definition negate (t : term) : result term := neg (S (weight t)) t.
Definition plus (t u : term) : result term := add (S (weight t + weight u)) t u.
Definition minus (t u : term) : result term := sub (S (weight t + weight u)) t u.
Definition times (t u : term) : result term := mul (S (weight t + weight u)) t u.

(** The remaining factories *)
Definition absolute_factory (v : term) (x : bool) : result term :=       (* _unary.py:29-46 *)
  if x then v <- invert_transform v ;; Ok (abs_ v) else Ok (abs_ v).
Definition negative_factory (v : term) (x : bool) : result term :=       (* _unary.py:113-130 *)
  if x then v <- invert_transform v ;; negate v else negate v.
Definition sum_factory := sum_factory_ invert_transform plus.
Definition difference_factory := difference_factory_ invert_transform negate.
Definition product_factory := product_factory_ invert_transform times.

End Terms.
