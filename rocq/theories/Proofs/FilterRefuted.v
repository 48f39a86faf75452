(** Filters, whose responses are not what is documented. *)

From Coq Require Import String ZArith List Bool Lia Field Reals Lra.
From Verif.Model Require Import Py Functions Signal Terms Filter Interpolation.
From Verif.Spec Require Import TermsSpec FilterSpec InterpolationSpec ComplexSpec.
From Verif.Proofs Require Import PyFacts TermFacts FilterFacts DictionaryFacts FilterResults InterpolationFacts ComplexFacts.
Import ListNotations.
Open Scope Z_scope.

Section Refuted.
Context {K X : Type}.
Variable A : arithmetic K X.
Hypothesis EA : exact_arithmetic A.
Notation O := (k_ops A).
Notation term := (term K X).
Notation "0k" := (o_zero O).
Notation "1k" := (o_one O).
Infix "[+]" := (o_add O) (at level 50, left associativity).
Infix "[-]" := (o_sub O) (at level 50, left associativity).
Infix "[*]" := (o_mul O) (at level 40, left associativity).
Infix "[/]" := (o_div O) (at level 40, left associativity).
Variable junk : K.

Let FF := exact_field A EA.
Add Field KF2 : FF.

Lemma null_zero : is_null A 0k = true.
Proof. now apply (is_null_eq A EA). Qed.
Lemma null_one : is_null A 1k = false.
Proof. apply (is_null_neq A EA), (one_neq_zero A EA). Qed.

Definition s_ : term := Polynomial [1k; 0k] false.

Lemma value_s f s : value A f s s_ = Some s.
Proof. cbn. f_equal. ring. Qed.

Lemma difference_factory_wrong f : s_of A f <> 0k -> s_of A f [*] s_of A f <> 1k ->
  exists u, difference_factory A (Constant 0k) s_ true = Ok u /\
    evaluate A junk (Difference (Constant 0k) s_ true) f = Some (0k [-] 1k [/] s_of A f) /\ evaluate A junk u f = Some (0k [-] s_of A f) /\
    0k [-] 1k [/] s_of A f <> 0k [-] s_of A f.
Proof.
  intros N N'. exists (Negative s_ false). split.
  { unfold difference_factory, difference_factory_, s_, is_zero. cbn [is_zero_n size forallb]. rewrite null_one, null_zero. reflexivity. }
  unfold evaluate. rewrite !(call_value A EA junk f N _ false). cbn. split; [|split].
  - f_equal. unfold inverse. field. auto.
  - f_equal. ring.
  - intros E. apply N'. replace (s_of A f [*] s_of A f) with (0k [-] s_of A f [*] (0k [-] s_of A f)) by ring. rewrite <- E. field. auto.
Qed.

Lemma invert_transform_wrong f : s_of A f <> 0k -> s_of A f [*] s_of A f <> 1k ->
  exists d d' u, minus A (Constant 1k) s_ = Ok d /\ plus A d (Constant (o_neg O 1k)) = Ok d' /\ invert_transform A d' = Ok u /\
    evaluate A junk d' f = Some (0k [-] s_of A f) /\ evaluate A junk u f = Some (0k [-] s_of A f) /\
    0k [-] 1k [/] s_of A f <> 0k [-] s_of A f.
Proof.
  intros N N'. exists (Difference (Constant 1k) s_ false), (Difference (Constant (1k [+] o_neg O 1k)) s_ false), (Negative s_ false). split.
  { unfold minus, sub. cbn. now rewrite null_one. }
  replace (1k [+] o_neg O 1k) with 0k by ring. split.
  { unfold plus. cbn [weight fold_right Nat.add add]. cbn [bind]. rewrite null_one. cbn [bind]. now replace (1k [+] o_neg O 1k) with 0k by ring. }
  split.
  { unfold invert_transform. cbn [weight fold_right Nat.add inv negb]. unfold difference_factory_, s_, is_zero. cbn [is_zero_n size forallb]. rewrite null_one, null_zero. reflexivity. }
  unfold evaluate. rewrite !(call_value A EA junk f N _ false). cbn. split; [|split].
  - f_equal. ring.
  - f_equal. ring.
  - intros E. apply N'. replace (s_of A f [*] s_of A f) with (0k [-] s_of A f [*] (0k [-] s_of A f)) by ring. rewrite <- E. field. auto.
Qed.

Lemma sum_at_zero_hz f : s_of A f = 0k ->
  exists u, plus A (Constant 1k) (Polynomial [1k; 0k] true) = Ok u /\
    evaluate A junk (Constant 1k) f = Some 1k /\ evaluate A junk (Polynomial [1k; 0k] true) f = Some 0k /\ evaluate A junk u f = Some 0k.
Proof.
  intros Z. eexists. split.
  { unfold plus. cbn [weight fold_right Nat.add add]. rewrite null_one. reflexivity. }
  unfold evaluate. cbn. rewrite Z, null_zero. auto.
Qed.

Lemma channels_at_zero_hz f : s_of A f = 0k ->
  let F := mk_filter [Polynomial [1k; 0k] true; Constant 1k] [] in
  evaluate A junk (Constant 1k) f = Some 1k /\ response A junk F 1 f = Some 0k.
Proof. intros Z. unfold evaluate, response. cbn. rewrite Z, null_zero. auto. Qed.

Lemma equality_not_symmetric :
  let F := mk_filter [Constant 0k : term] [] in let G := mk_filter [Polynomial [0k; 0k] false] [] in
  filter_eqb A F G = true /\ filter_eqb A G F = false.
Proof. unfold filter_eqb, equal. cbn. now rewrite null_zero. Qed.

Lemma bands_equality_wrong (x : X) (y : K) : y <> 0k ->
  let F := mk_filter [Bands [] [] Zero StairsLin] [] in let G := mk_filter [Bands [x] [y] Zero StairsLin] [] in
  filter_eqb A F G = true /\ forall f, interpolate A StairsLin f [x] [y] = Some y -> x_ltb A f x = true ->
    response A junk F 0 f = Some 0k /\ response A junk G 0 f = Some y.
Proof. intros N. split; [reflexivity|]. intros f I L. unfold response. cbn. rewrite L. cbn. now rewrite I. Qed.

Lemma read_one complex_array real imag unit (t u : term) labels l : term_from_dict A unit (as_dict complex_array real imag t) = Ok u ->
  f_labels (mk_filter [t] labels) = l ->
  filter_from_dict A unit (filter_as_dict complex_array real imag (mk_filter [t] labels)) = Ok (mk_filter [u] l).
Proof.
  intros E L. set (F := mk_filter [t] labels) in *.
  change (filter_from_dict A unit (filter_as_dict complex_array real imag F)) with
      (t <- sequence [term_from_dict A unit (as_dict complex_array real imag t)] ;;
       s <- sequence (map (fun d : @data K X => match d with DStr s => Ok s | _ => Err TypeError end) (map DStr (f_labels F))) ;; Ok (mk_filter t s)).
  cbn [sequence]. rewrite E. cbn [bind]. now rewrite strings_ok, L.
Qed.

Lemma read_s complex_array real imag unit : term_from_dict A unit (as_dict complex_array real imag s_) = Ok s_.
Proof. unfold s_. rewrite read_polynomial. unfold polynomial_factory, drop_zeros. now rewrite null_one. Qed.

Lemma round_trip_wrong f complex_array real imag unit : s_of A f <> 0k -> s_of A f [*] s_of A f <> 1k ->
  let F := mk_filter [Difference (Constant 0k) s_ true] [] in
  exists G, filter_from_dict A unit (filter_as_dict complex_array real imag F) = Ok G /\
    response A junk F 0 f = Some (0k [-] 1k [/] s_of A f) /\ response A junk G 0 f = Some (0k [-] s_of A f) /\
    0k [-] 1k [/] s_of A f <> 0k [-] s_of A f.
Proof.
  intros N N'. exists (mk_filter [Negative s_ false] [""%string]). split.
  - apply read_one; [|reflexivity]. rewrite (read_difference A _ _ _ _ _ _ _ (Constant 0k) s_); [|apply read_constant|apply read_s].
    unfold difference_factory, difference_factory_, s_, is_zero. cbn [is_zero_n size forallb]. now rewrite null_one, null_zero.
  - rewrite !(response_at A junk EA) by (now left). cbn [transfer_functions mk_filter]. rewrite !zth_cons. cbn. split; [|split].
    + f_equal. unfold inverse. field. auto.
    + f_equal. ring.
    + intros E. apply N'. replace (s_of A f [*] s_of A f) with (0k [-] s_of A f [*] (0k [-] s_of A f)) by ring. rewrite <- E. field. auto.
Qed.

Lemma round_trip_not_equal complex_array real imag unit :
  let F := mk_filter [Sum [s_; Constant 0k] false] [""%string] in
  exists G, filter_from_dict A unit (filter_as_dict complex_array real imag F) = Ok G /\ filter_eqb A F G = false.
Proof.
  exists (mk_filter [s_] [""%string]). split; [|reflexivity].
  apply read_one; [|reflexivity]. rewrite (read_sum A _ _ _ _ _ _ [s_; Constant 0k]); [|constructor; [apply read_s|constructor; [apply read_constant|constructor]]].
  unfold sum_factory, sum_factory_, s_, is_zero. cbn [is_zero_n size forallb List.filter]. now rewrite null_one, null_zero.
Qed.

End Refuted.
