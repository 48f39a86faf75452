(** Properties of filters and of the terms, from which their transfer functions are built: C23, C24, C25, C26, C46 and C47.

    The values of the transfer functions are of a type with exact arithmetic, for example complex numbers (see [C23_complex_numbers]). *)

From Coq Require Import String ZArith List Bool Reals Lra.
From Verif.Model Require Import Py Functions Signal Spectrum Terms Filter Interpolation.
From Verif.Spec Require Import TermsSpec FilterSpec FrequencySpec SliceSpec InterpolationSpec ComplexSpec.
From Verif.Proofs Require Import PyFacts InterpolationFacts ComplexFacts FilterOperators FilterResults FilterSlices FilterRefuted BandsFacts FilterExamples.
Import ListNotations.
Open Scope Z_scope.

(** The hypothesis of the theorems is fulfilled by complex numbers. *)
Theorem C23_complex_numbers : forall power modulo log2_c exp2_c, exact_arithmetic (complex_arithmetic power modulo log2_c exp2_c).
Proof. exact complex_exact. Qed.
Print Assumptions C23_complex_numbers.

(** * C23 Filter arithmetic is pointwise arithmetic of transfer functions

    Missing for the full statements: filters, that contain both transformed terms and differences, transformed terms at 0 Hz and bands with
    interpolations, for which the values between the supporting points are computed from several of them.  See the theorems at the end of this section. *)

Theorem C23_sum_partial : forall K X (A : arithmetic K X) junk k (F G : filter K X), exact_arithmetic A ->
  regular_filter k F -> regular_filter k G -> compatible (f_count F) (f_count G) ->
  exists H, filter_add A F G = Ok H /\ pointwise2 A junk k (o_add (k_ops A)) always F G H /\ labels_of "Sum" H /\ regular_filter k H.
Proof. exact (fun K X A junk k F G EA => filter_add_ok A EA junk k F G). Qed.
Print Assumptions C23_sum_partial.

Theorem C23_difference_partial : forall K X (A : arithmetic K X) junk k (F G : filter K X), exact_arithmetic A ->
  regular_filter k F -> regular_filter k G -> compatible (f_count F) (f_count G) ->
  exists H, filter_sub A F G = Ok H /\ pointwise2 A junk k (o_sub (k_ops A)) always F G H /\ labels_of "Difference" H /\
            (k = Untransformed -> regular_filter k H).
Proof. exact (fun K X A junk k F G EA => filter_sub_ok A EA junk k F G). Qed.
Print Assumptions C23_difference_partial.

Theorem C23_product_partial : forall K X (A : arithmetic K X) junk k (F G : filter K X), exact_arithmetic A ->
  regular_filter k F -> regular_filter k G -> compatible (f_count F) (f_count G) ->
  exists H, filter_mul A F G = Ok H /\ pointwise2 A junk k (o_mul (k_ops A)) always F G H /\ labels_of "Product" H /\ regular_filter k H.
Proof. exact (fun K X A junk k F G EA => filter_mul_ok A EA junk k F G). Qed.
Print Assumptions C23_product_partial.

(** Dividing by a constant 0 can raise an exception. *)
Theorem C23_quotient_partial : forall K X (A : arithmetic K X) junk k (F G : filter K X), exact_arithmetic A ->
  regular_filter k F -> regular_filter k G -> compatible (f_count F) (f_count G) ->
  (filter_div A F G = Err ZeroDivisionError /\ ~ Forall (divisor A) (transfer_functions G)) \/
  exists H, filter_div A F G = Ok H /\ pointwise2 A junk k (o_div (k_ops A)) (not_zero A) F G H /\ labels_of "Quotient" H /\ regular_filter k H.
Proof. exact (fun K X A junk k F G EA => filter_div_complete A EA junk k F G). Qed.
Print Assumptions C23_quotient_partial.

Theorem C23_incompatible : forall K X (A : arithmetic K X) (F G : filter K X), ~ compatible (f_count F) (f_count G) ->
  filter_add A F G = Err ValueError /\ filter_sub A F G = Err ValueError /\ filter_mul A F G = Err ValueError /\ filter_div A F G = Err ValueError.
Proof. exact @filter_incompatible. Qed.
Print Assumptions C23_incompatible.

(** A number on the right or on the left of the operator *)
Theorem C23_plus_number_partial : forall K X (A : arithmetic K X) junk k (F : filter K X) v, exact_arithmetic A -> regular_filter k F ->
  exists H, filter_add_number A F v = Ok H /\ pointwise1 A junk k (fun a => o_add (k_ops A) a v) always F H /\
    (labelled F -> f_labels H = f_labels F) /\ regular_filter k H.
Proof. exact (fun K X A junk k F v EA => filter_add_number_ok A EA junk k F v). Qed.
Print Assumptions C23_plus_number_partial.

Theorem C23_minus_number_partial : forall K X (A : arithmetic K X) junk k (F : filter K X) v, exact_arithmetic A -> regular_filter k F ->
  (exists H, filter_sub_number A F v = Ok H /\ pointwise1 A junk k (fun a => o_sub (k_ops A) a v) always F H /\
    (labelled F -> f_labels H = f_labels F) /\ (k = Untransformed -> regular_filter k H)) /\
  (exists H, filter_rsub_number A F v = Ok H /\ pointwise1 A junk k (fun a => o_sub (k_ops A) v a) always F H /\
    (labelled F -> f_labels H = f_labels F) /\ (k = Untransformed -> regular_filter k H)).
Proof. exact (fun K X A junk k F v EA R => conj (filter_sub_number_ok A EA junk k F v R) (filter_rsub_number_ok A EA junk k F v R)). Qed.
Print Assumptions C23_minus_number_partial.

Theorem C23_times_number_partial : forall K X (A : arithmetic K X) junk k (F : filter K X) v, exact_arithmetic A -> regular_filter k F ->
  exists H, filter_mul_number A F v = Ok H /\ pointwise1 A junk k (fun a => o_mul (k_ops A) a v) always F H /\
    (labelled F -> f_labels H = f_labels F) /\ regular_filter k H.
Proof. exact (fun K X A junk k F v EA => filter_mul_number_ok A EA junk k F v). Qed.
Print Assumptions C23_times_number_partial.

Theorem C23_divided_by_number_partial : forall K X (A : arithmetic K X) junk k (F : filter K X) v, exact_arithmetic A -> regular_filter k F ->
  (v <> o_zero (k_ops A) ->
   exists H, filter_div_number A F v = Ok H /\ pointwise1 A junk k (fun a => o_div (k_ops A) a v) always F H /\
     (labelled F -> f_labels H = f_labels F) /\ regular_filter k H) /\
  ((filter_rdiv_number A F v = Err ZeroDivisionError /\ ~ Forall (divisor A) (transfer_functions F)) \/
   exists H, filter_rdiv_number A F v = Ok H /\ pointwise1 A junk k (fun a => o_div (k_ops A) v a) (not_zero A) F H /\
     (labelled F -> f_labels H = f_labels F) /\ regular_filter k H).
Proof. exact (fun K X A junk k F v EA R => conj (filter_div_number_ok A EA junk k F v R) (filter_rdiv_number_complete A EA junk k F v R)). Qed.
Print Assumptions C23_divided_by_number_partial.

Theorem C23_unary_operators_partial : forall K X (A : arithmetic K X) junk k (F : filter K X), exact_arithmetic A -> regular_filter k F ->
  (exists H, filter_neg A F = Ok H /\ pointwise1 A junk k (o_neg (k_ops A)) always F H /\ (labelled F -> f_labels H = f_labels F) /\ regular_filter k H) /\
  (exists H, filter_abs A F = Ok H /\ pointwise1 A junk k (o_abs (k_ops A)) always F H /\ (labelled F -> f_labels H = f_labels F) /\ regular_filter k H) /\
  ((filter_invert A F = Err ZeroDivisionError /\ ~ Forall (divisor A) (transfer_functions F)) \/
   exists H, filter_invert A F = Ok H /\ pointwise1 A junk k (fun a => o_div (k_ops A) (o_one (k_ops A)) a) (not_zero A) F H /\
     (labelled F -> f_labels H = f_labels F) /\ regular_filter k H).
Proof. exact (fun K X A junk k F EA R => conj (filter_neg_ok A EA junk k F R) (conj (filter_abs_ok A EA junk k F R) (filter_invert_complete A EA junk k F R))). Qed.
Print Assumptions C23_unary_operators_partial.

(** Bands with the same supporting points and with linear interpolations can be added and subtracted, too. *)
Theorem C23_linear_bands : forall power modulo log2_c exp2_c junk xs ys ys' i e,
  additive i -> additive e -> zlen ys = zlen xs -> zlen ys' = zlen xs ->
  let A := complex_arithmetic power modulo log2_c exp2_c in
  exists s d n, plus A (Bands xs ys i e) (Bands xs ys' i e) = Ok s /\ minus A (Bands xs ys i e) (Bands xs ys' i e) = Ok d /\ negate A (Bands xs ys i e) = Ok n /\
    forall f, evaluate A junk s f = lift2 Cadd (evaluate A junk (Bands xs ys i e) f) (evaluate A junk (Bands xs ys' i e) f) /\
      evaluate A junk d f = lift2 Csub (evaluate A junk (Bands xs ys i e) f) (evaluate A junk (Bands xs ys' i e) f) /\
      evaluate A junk n f = lift Cneg (evaluate A junk (Bands xs ys i e) f).
Proof. exact bands_operators. Qed.
Print Assumptions C23_linear_bands.

(** Equal filters have the same labels and transfer functions.  (Not necessarily the other way round.) *)
Theorem C23_equal : forall K X (A : arithmetic K X) junk (F G : filter K X), exact_arithmetic A ->
  Forall (every (@proper K X)) (transfer_functions F) -> Forall (every (@proper K X)) (transfer_functions G) ->
  filter_eqb A F G = true -> f_count F = f_count G /\ f_labels F = f_labels G /\
  forall c f a b, plain_at A F f -> plain_at A G f -> response A junk F c f = Some a -> response A junk G c f = Some b -> a = b.
Proof. exact (fun K X A junk F G EA => filter_eqb_sound A junk EA F G). Qed.
Print Assumptions C23_equal.

(** The filters in the examples: the channel "a" is [(1 + s) / 2] and the channel "b" is 3 below 10 Hz and 4 above 10 Hz.  The second filter is
    [(1 + 1 / s) / 2]. *)
Example C23_demo :
  demo_filter =
    mk_filter [Quotient (Sum [Constant (1, 0)%R; Polynomial [(1, 0)%R; (0, 0)%R] false] false) (Constant (2, 0)%R) false;
               Bands [5; 15]%R [(3, 0); (4, 0)]%R StairsLin StairsLin] ["a"; "b"]%string /\
  demo_highpass =
    mk_filter [Quotient (Sum [Constant (1, 0)%R; Polynomial [(1, 0)%R; (0, 0)%R] false] false) (Constant (2, 0)%R) true] ["c"]%string.
Proof. split; reflexivity. Qed.

Example C23_example : regular_filter Untransformed demo_filter /\ regular_filter NoDifferences demo_filter /\ regular_filter NoDifferences demo_highpass /\
  labelled demo_filter /\ compatible (f_count demo_filter) (f_count demo_highpass) /\ ~ compatible 2 3.
Proof. exact filter_example. Qed.

(** Its transfer function has values at all frequencies, and that of [demo_highpass] has values at all frequencies but 0 Hz. *)
Example C23_values_example : forall power modulo log2_c exp2_c junk f, let A := complex_arithmetic power modulo log2_c exp2_c in
  response A junk demo_filter 0 f = Some (1 / 2, PI * f)%R /\ response A junk demo_filter 1 20%R = Some (4, 0)%R /\
  (f <> 0%R -> defined_at A NoDifferences f /\ response A junk demo_highpass 0 f = Some (1 / 2, - / (4 * PI * f))%R).
Proof. exact filter_values_example. Qed.

(** At 0 Hz, where the highpass [1 / s] has no value, a filter gives 0 for it; but then the sum of 1 and the highpass is 0 there instead of 1. *)
Theorem C23_zero_hz_refuted : forall K X (A : arithmetic K X) junk f, exact_arithmetic A -> s_of A f = o_zero (k_ops A) ->
  let one := o_one (k_ops A) in let zero := o_zero (k_ops A) in
  exists u, plus A (Constant one) (Polynomial [one; zero] true) = Ok u /\
    evaluate A junk (Constant one) f = Some one /\ evaluate A junk (Polynomial [one; zero] true) f = Some zero /\ evaluate A junk u f = Some zero.
Proof. exact (fun K X A junk f EA => sum_at_zero_hz A EA junk f). Qed.
Print Assumptions C23_zero_hz_refuted.

(** The product of two bands with linear interpolation: 2 * 2 = 5 *)
Theorem C23_product_of_bands_refuted : forall power modulo log2_c exp2_c junk,
  let A := complex_arithmetic power modulo log2_c exp2_c in
  let t := Bands [1; 3]%R [C_of_R 1; C_of_R 3] Linear Linear in
  exists u, times A t t = Ok u /\ evaluate A junk t 2%R = Some (C_of_R 2) /\ evaluate A junk u 2%R = Some (C_of_R 5).
Proof. exact linear_product_wrong. Qed.
Print Assumptions C23_product_of_bands_refuted.

(** The sum of two bands, whose interpolation is 1: 1 + 1 = 1 *)
Theorem C23_sum_of_bands_refuted : forall power modulo log2_c exp2_c junk,
  let A := complex_arithmetic power modulo log2_c exp2_c in
  let t := Bands [1; 3]%R [C_of_R 1; C_of_R 3] One One in
  exists u, plus A t t = Ok u /\ evaluate A junk t 2%R = Some (C_of_R 1) /\ evaluate A junk u 2%R = Some (C_of_R 1).
Proof. exact ones_sum_wrong. Qed.
Print Assumptions C23_sum_of_bands_refuted.

(** Equality is not symmetric. *)
Theorem C23_symmetry_refuted : forall K X (A : arithmetic K X), exact_arithmetic A ->
  let zero := o_zero (k_ops A) in
  let F := mk_filter [Constant zero] [] in let G := mk_filter [Polynomial [zero; zero] false] [] in
  filter_eqb A F G = true /\ filter_eqb A G F = false.
Proof. exact (fun K X A EA => equality_not_symmetric A EA). Qed.
Print Assumptions C23_symmetry_refuted.

(** Bands without supporting points are equal to bands with one supporting point, whose transfer function is different. *)
Theorem C23_equal_bands_refuted : forall K X (A : arithmetic K X) junk (x : X) (y : K), y <> o_zero (k_ops A) ->
  let F := mk_filter [Bands [] [] Zero StairsLin] [] in let G := mk_filter [Bands [x] [y] Zero StairsLin] [] in
  filter_eqb A F G = true /\ forall f, interpolate A StairsLin f [x] [y] = Some y -> x_ltb A f x = true ->
    response A junk F 0 f = Some (o_zero (k_ops A)) /\ response A junk G 0 f = Some y.
Proof. exact (fun K X A junk => bands_equality_wrong A junk). Qed.
Print Assumptions C23_equal_bands_refuted.

(** * C24 Term simplification never changes the transfer function

    Missing for the full statement: the same as for C23, and [C24_difference_refuted]. *)

Theorem C24_sum_partial : forall K X (A : arithmetic K X) junk k (l : list (term K X)) x, exact_arithmetic A -> allowed k x -> Forall (regular k) l ->
  exists u, sum_factory A l x = Ok u /\ regular k u /\ same_response A junk k (Sum l x) u.
Proof. exact (fun K X A junk k l x EA => sum_factory_good A EA junk k l x). Qed.
Print Assumptions C24_sum_partial.

Theorem C24_product_partial : forall K X (A : arithmetic K X) junk k (l : list (term K X)) x, exact_arithmetic A -> allowed k x -> Forall (regular k) l ->
  exists u, product_factory A l x = Ok u /\ regular k u /\ same_response A junk k (Product l x) u.
Proof. exact (fun K X A junk k l x EA => product_factory_good A EA junk k l x). Qed.
Print Assumptions C24_product_partial.

Theorem C24_difference_partial : forall K X (A : arithmetic K X) junk k (m s : term K X) x, exact_arithmetic A -> allowed k x -> regular k m -> regular k s ->
  (x = true -> is_zero A m = true -> is_zero A s = true) ->
  exists u, difference_factory A m s x = Ok u /\ (k = Untransformed -> regular k u) /\ same_response A junk k (Difference m s x) u.
Proof. exact (fun K X A junk k m s x EA => difference_factory_good A EA junk k m s x). Qed.
Print Assumptions C24_difference_partial.

Theorem C24_quotient_partial : forall K X (A : arithmetic K X) junk k (a b : term K X) x, exact_arithmetic A -> allowed k x -> regular k a -> regular k b ->
  regular k (quotient_factory A a b x) /\ same_response A junk k (Quotient a b x) (quotient_factory A a b x).
Proof. exact (fun K X A junk k a b x EA => quotient_factory_good A EA junk k a b x). Qed.
Print Assumptions C24_quotient_partial.

Theorem C24_unary_partial : forall K X (A : arithmetic K X) junk k (v : term K X) x, exact_arithmetic A -> allowed k x -> regular k v ->
  (exists u, absolute_factory A v x = Ok u /\ regular k u /\ same_response A junk k (Absolute v x) u) /\
  (exists u, negative_factory A v x = Ok u /\ regular k u /\ same_response A junk k (Negative v x) u).
Proof. exact (fun K X A junk k v x EA Q R => conj (absolute_factory_good A EA junk k v x Q R) (negative_factory_good A EA junk k v x Q R)). Qed.
Print Assumptions C24_unary_partial.

Theorem C24_primitive : forall K X (A : arithmetic K X) junk k (c : list K) (e : K) x, exact_arithmetic A -> allowed k x -> c <> [] ->
  (regular k (polynomial_factory A c x : term K X) /\
   forall f : X, defined_at A k f -> evaluate A junk (polynomial_factory A c x) f = evaluate A junk (Polynomial c x) f) /\
  (regular k (exp_factory A e x : term K X) /\
   forall f : X, defined_at A k f -> evaluate A junk (exp_factory A e x) f = evaluate A junk (Exp e x) f).
Proof. exact (fun K X A junk k c e x EA Q N => conj (polynomial_factory_good A EA junk k c x Q N) (exp_factory_good A EA junk k e x Q)). Qed.
Print Assumptions C24_primitive.

Example C24_example : forall power modulo log2_c exp2_c, let A := complex_arithmetic power modulo log2_c exp2_c in
  Forall (regular NoDifferences) (transfer_functions demo_filter) /\ allowed NoDifferences true /\
  exists t u, transfer_functions demo_filter = [t; u] /\ sum_factory A [t; Constant (0, 0)%R] false = Ok t /\ is_zero A t = false.
Proof. exact factory_example. Qed.

(** [Difference.factory(Constant(0), s, transform=True)] has the transfer function [-s] instead of [-1 / s]. *)
Theorem C24_difference_refuted : forall K X (A : arithmetic K X) junk f, exact_arithmetic A ->
  let O := k_ops A in let s := s_of A f in let p := Polynomial [o_one O; o_zero O] false in
  s <> o_zero O -> o_mul O s s <> o_one O ->
  exists u, difference_factory A (Constant (o_zero O)) p true = Ok u /\
    evaluate A junk (Difference (Constant (o_zero O)) p true) f = Some (o_sub O (o_zero O) (o_div O (o_one O) s)) /\
    evaluate A junk u f = Some (o_sub O (o_zero O) s) /\
    o_sub O (o_zero O) (o_div O (o_one O) s) <> o_sub O (o_zero O) s.
Proof. exact (fun K X A junk f EA => difference_factory_wrong A EA junk f). Qed.
Print Assumptions C24_difference_refuted.

(** * C25 Lowpass-highpass transformation is an involution

    Missing for the full statements: terms, that contain differences (see [C25_difference_refuted]), and bands as described above. *)

Theorem C25_transform_partial : forall K X (A : arithmetic K X) junk (t : term K X), exact_arithmetic A -> regular NoDifferences t ->
  exists u, invert_transform A t = Ok u /\ regular NoDifferences u /\
    forall f a, s_of A f <> o_zero (k_ops A) -> value A f (inverse A (s_of A f)) t = Some a -> evaluate A junk u f = Some a.
Proof. exact (fun K X A junk t EA => invert_transform_evaluate A EA junk t). Qed.
Print Assumptions C25_transform_partial.

(** What is called the value above, is the response of the term itself. *)
Theorem C25_value : forall K X (A : arithmetic K X) junk (t : term K X) f, exact_arithmetic A -> s_of A f <> o_zero (k_ops A) ->
  evaluate A junk t f = value A f (s_of A f) t.
Proof. exact (fun K X A junk t f EA => evaluate_is_value A EA junk t f). Qed.
Print Assumptions C25_value.

Theorem C25_twice_partial : forall K X (A : arithmetic K X) junk (t : term K X), exact_arithmetic A -> regular NoDifferences t ->
  exists u v, invert_transform A t = Ok u /\ invert_transform A u = Ok v /\ regular NoDifferences v /\ same_response A junk NoDifferences t v.
Proof. exact (fun K X A junk t EA => invert_transform_twice A EA junk t). Qed.
Print Assumptions C25_twice_partial.

Example C25_example : exists t, transfer_functions demo_highpass = [t] /\ regular NoDifferences t /\ transform t = true.
Proof. eexists. split; [reflexivity|]. split; [|reflexivity]. destruct C23_example as (_ & _ & H & _). inversion H. auto. Qed.

(** The transform is lost for [(1 - s) + (-1)], which is the difference of 0 and [s]. *)
Theorem C25_difference_refuted : forall K X (A : arithmetic K X) junk f, exact_arithmetic A ->
  let O := k_ops A in let s := s_of A f in
  s <> o_zero O -> o_mul O s s <> o_one O ->
  exists d d' u, minus A (Constant (o_one O)) (Polynomial [o_one O; o_zero O] false) = Ok d /\ plus A d (Constant (o_neg O (o_one O))) = Ok d' /\
    invert_transform A d' = Ok u /\
    evaluate A junk d' f = Some (o_sub O (o_zero O) s) /\ evaluate A junk u f = Some (o_sub O (o_zero O) s) /\
    o_sub O (o_zero O) (o_div O (o_one O) s) <> o_sub O (o_zero O) s.
Proof. exact (fun K X A junk f EA => invert_transform_wrong A EA junk f). Qed.
Print Assumptions C25_difference_refuted.

(** * C26 Filter dictionaries round trip

    Missing for the full statement: transformed differences (see [C26_difference_refuted]); the terms can be simplified (see
    [C26_equal_refuted]). *)

Theorem C26_round_trip_partial : forall K X (A : arithmetic K X) junk (complex_array : list K -> bool) (real imag : K -> K) (unit : K) k (F : filter K X),
  exact_arithmetic A -> regular_filter k F -> labelled F -> Forall (every (readable A real imag unit)) (transfer_functions F) ->
  exists G, filter_from_dict A unit (filter_as_dict complex_array real imag F) = Ok G /\ f_labels G = f_labels F /\ f_count G = f_count F /\ regular_filter k G /\
    forall c f a, defined_at A k f -> response A junk F c f = Some a -> response A junk G c f = Some a.
Proof. exact (fun K X A junk complex_array real imag unit k F EA => filter_round_trip A junk EA complex_array real imag unit k F). Qed.
Print Assumptions C26_round_trip_partial.

Example C26_example : forall power modulo log2_c exp2_c, let A := complex_arithmetic power modulo log2_c exp2_c in
  Forall (every (readable A (fun z => C_of_R (re z)) (fun z => C_of_R (im z)) j)) (transfer_functions demo_filter).
Proof. exact readable_example. Qed.

Theorem C26_difference_refuted : forall K X (A : arithmetic K X) junk f complex_array real imag unit, exact_arithmetic A ->
  let O := k_ops A in let s := s_of A f in
  s <> o_zero O -> o_mul O s s <> o_one O ->
  let F := mk_filter [Difference (Constant (o_zero O)) (Polynomial [o_one O; o_zero O] false) true] [] in
  exists G, filter_from_dict A unit (filter_as_dict complex_array real imag F) = Ok G /\
    response A junk F 0 f = Some (o_sub O (o_zero O) (o_div O (o_one O) s)) /\ response A junk G 0 f = Some (o_sub O (o_zero O) s) /\
    o_sub O (o_zero O) (o_div O (o_one O) s) <> o_sub O (o_zero O) s.
Proof. exact (fun K X A junk f complex_array real imag unit EA => round_trip_wrong A EA junk f complex_array real imag unit). Qed.
Print Assumptions C26_difference_refuted.

Theorem C26_equal_refuted : forall K X (A : arithmetic K X) complex_array real imag unit, exact_arithmetic A ->
  let O := k_ops A in
  let F := mk_filter [Sum [Polynomial [o_one O; o_zero O] false; Constant (o_zero O)] false] [""%string] in
  exists G, filter_from_dict A unit (filter_as_dict complex_array real imag F) = Ok G /\ filter_eqb A F G = false.
Proof. exact (fun K X A complex_array real imag unit EA => round_trip_not_equal A EA complex_array real imag unit). Qed.
Print Assumptions C26_equal_refuted.

(** * C46 The channels of a filter are independent *)

Theorem C46_channels_partial : forall K X (A : arithmetic K X) junk (F : filter K X) f c, exact_arithmetic A -> plain_at A F f ->
  response A junk F c f = match zth (transfer_functions F) c with Some t => evaluate A junk t f | None => None end.
Proof. exact (fun K X A junk F f c EA => channels_independent A junk EA F f c). Qed.
Print Assumptions C46_channels_partial.

Theorem C46_slice_partial : forall K X (A : arithmetic K X) junk (F : filter K X) (a b k : option Z), exact_arithmetic A -> labelled F ->
  let step := match k with Some k => k | None => 1 end in 0 < step ->
  exists G, filter_getitem F (KOne (KSlice (option_map NInt a) (option_map NInt b) (option_map NInt k))) = Ok G /\ labelled G /\
    (forall i, 0 <= i -> (i < f_count G <-> selected a b (f_count F) (starts_at a (f_count F) + i * step))) /\
    (forall i, 0 <= i < f_count G -> zth (f_labels G) i = zth (f_labels F) (starts_at a (f_count F) + i * step)) /\
    (forall i f, 0 <= i < f_count G -> plain_at A F f -> response A junk G i f = response A junk F (starts_at a (f_count F) + i * step) f).
Proof. exact (fun K X A junk F a b k EA => filter_slice A junk EA F a b k). Qed.
Print Assumptions C46_slice_partial.

Theorem C46_index_partial : forall K X (A : arithmetic K X) junk (F : filter K X) (i : Z), exact_arithmetic A -> labelled F -> 0 <= i < f_count F ->
  exists G, filter_getitem F (KOne (KNum (NInt i))) = Ok G /\ f_count G = 1 /\ Some (f_labels G) = option_map (fun l => [l]) (zth (f_labels F) i) /\
    forall f, plain_at A F f -> response A junk G 0 f = response A junk F i f.
Proof. exact (fun K X A junk F i EA => filter_channel A junk EA F i). Qed.
Print Assumptions C46_index_partial.

Example C46_example : forall power modulo log2_c exp2_c, labelled demo_filter /\ f_count demo_filter = 2 /\
  forall f, plain_at (complex_arithmetic power modulo log2_c exp2_c) demo_filter f.
Proof. exact plain_example. Qed.

(** At 0 Hz, a channel with a highpass makes the following channels 0. *)
Theorem C46_zero_hz_refuted : forall K X (A : arithmetic K X) junk f, exact_arithmetic A -> s_of A f = o_zero (k_ops A) ->
  let one := o_one (k_ops A) in let zero := o_zero (k_ops A) in
  let F := mk_filter [Polynomial [one; zero] true; Constant one] [] in
  evaluate A junk (Constant one) f = Some one /\ response A junk F 1 f = Some zero.
Proof. exact (fun K X A junk f EA => channels_at_zero_hz A EA junk f). Qed.
Print Assumptions C46_zero_hz_refuted.

(** Filters cannot be indexed with tuples, although this is documented. *)
Theorem C46_tuple_refuted : forall K X (F : filter K X) (k : Z), filter_getitem F (KTuple [KNum (NInt k)]) = Err TypeError.
Proof. exact @filter_tuple_key. Qed.
Print Assumptions C46_tuple_refuted.

(** * C47 Sampling a filter *)

(** Calling a filter with an array of frequencies gives the same values as calling it with each of the frequencies. *)
Theorem C47_array_of_frequencies : forall K X (A : arithmetic K X) junk (F : filter K X) (fs : list X),
  zlen (filter_call_array A junk F fs) = f_count F /\
  forall c row, zth (filter_call_array A junk F fs) c = Some row ->
    zlen row = zlen fs /\ forall i f, zth fs i = Some f -> zth row i = zth (filter_call A junk F f) c.
Proof. exact @filter_call_array_ok. Qed.
Print Assumptions C47_array_of_frequencies.

(** The spectrum of a filter has the values of the transfer function at the multiples of the resolution. *)
Theorem C47_spectrum : forall K X (A : arithmetic K X) junk (multiple : Z -> X -> X) (F : filter K X) (r : X) n, labelled F -> 0 <= n ->
  exists s, filter_spectrum A junk multiple F r n = Ok s /\ wf_spectrum s /\ resolution s = r /\ sp_labels s = f_labels F /\
    sp_count s = f_count F /\ sp_length s = n /\
    forall c k, 0 <= c < f_count F -> 0 <= k < n -> bin s c k = Some (response A junk F c (multiple k r)).
Proof. exact @filter_spectrum_ok. Qed.
Print Assumptions C47_spectrum.

(** Multiplying a filter and a spectrum multiplies each bin with the value of the transfer function at its frequency. *)
Theorem C47_product_with_spectrum : forall K X (A : arithmetic K X) junk (multiple : Z -> X -> X) memory (F : filter K X) (s : spectrum (option K) X),
  labelled F -> wf_spectrum s -> 1 <= f_count F -> 1 <= sp_count s -> compatible (f_count F) (sp_count s) ->
  exists r, filter_mul_spectrum A junk multiple memory F s = Ok r /\ wf_spectrum r /\ resolution r = resolution s /\ sp_length r = sp_length s /\
    sp_count r = combined (f_count F) (sp_count s) /\
    (forall c, 0 <= c < sp_count r -> zth (sp_labels r) c = Some "Product"%string) /\
    forall c k x, 0 <= c < sp_count r -> 0 <= k < sp_length r -> operand_bin s c k = Some x ->
      bin r c k = Some (binary (o_mul (k_ops A)) (response A junk F (channel_of F c) (multiple k (resolution s))) x).
Proof. exact @filter_mul_spectrum_ok. Qed.
Print Assumptions C47_product_with_spectrum.

Example C47_example : forall power modulo log2_c exp2_c junk, let A := complex_arithmetic power modulo log2_c exp2_c in
  exists s, filter_spectrum A junk (fun k x => (IZR k * x)%R) demo_filter 10%R 3 = Ok s /\ bin s 0 2 = Some (Some (1 / 2, PI * 20)%R).
Proof. exact sampling_example. Qed.
