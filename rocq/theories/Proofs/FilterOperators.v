(** The operators of filters, the factories of terms and the transform. *)

From Coq Require Import String ZArith List Bool Lia Ring Field.
From Verif.Model Require Import Py Functions Signal Terms Filter.
From Verif.Spec Require Import TermsSpec FilterSpec.
From Verif.Proofs Require Import PyFacts TermFacts TermOperators TermFuel FilterFacts.
Import ListNotations.
Open Scope Z_scope.

Section Operators.
Context {K X : Type}.
Variable A : arithmetic K X.
Hypothesis EA : exact_arithmetic A.
Notation O := (k_ops A).
Notation term := (term K X).
Notation filter := (filter K X).
Notation "0k" := (o_zero O).
Notation "1k" := (o_one O).
Notation value := (value A).
Variable junk : K.

Let FF := exact_field A EA.
Add Field KF : FF.

(** ** Operators of terms *)

Lemma plus_good k : good2 A k (o_add O) (fun _ => True) (plus A) /\ closed2 k (plus A).
Proof.
  assert (H : forall t t' u, regular k t -> regular k t' -> plus A t t' = Ok u -> regular k u /\ forall f a b, defined_at A k f ->
    value f (s_of A f) t = Some a -> value f (s_of A f) t' = Some b -> value f (s_of A f) u = Some (o_add O a b)).
  { intros t t' u R R' E. apply regular_good in R, R'. destruct (plus_is A EA (flag k) t t' u R R' E) as [G V].
    split; [now apply regular_good|]. intros f a b D. apply V. now apply defined_nz. }
  split; intros t t' u R R' E; destruct (H _ _ _ R R' E); auto. split; [now apply regular_plain|]. auto.
Qed.

Lemma times_good k : good2 A k (o_mul O) (fun _ => True) (times A) /\ closed2 k (times A).
Proof.
  assert (H : forall t t' u, regular k t -> regular k t' -> times A t t' = Ok u -> regular k u /\ forall f a b, defined_at A k f ->
    value f (s_of A f) t = Some a -> value f (s_of A f) t' = Some b -> value f (s_of A f) u = Some (o_mul O a b)).
  { intros t t' u R R' E. apply regular_good in R, R'. destruct (times_is A EA (flag k) t t' u R R' E) as [G V].
    split; [now apply regular_good|]. intros f a b D. apply V. now apply defined_nz. }
  split; intros t t' u R R' E; destruct (H _ _ _ R R' E); auto. split; [now apply regular_plain|]. auto.
Qed.

Lemma minus_good k : good2 A k (o_sub O) (fun _ => True) (minus A) /\ (k = Untransformed -> closed2 k (minus A)).
Proof.
  assert (H : forall t t' u, regular k t -> regular k t' -> minus A t t' = Ok u -> (k = Untransformed -> regular k u) /\ forall f a b, defined_at A k f ->
    value f (s_of A f) t = Some a -> value f (s_of A f) t' = Some b -> value f (s_of A f) u = Some (o_sub O a b)).
  { intros t t' u R R' E. apply regular_good in R, R'. destruct (sub_is A EA (flag k) _ t t' u R R' E) as [G V].
    split; [intros ->; apply regular_good; auto|]. intros f a b D. apply V. now apply defined_nz. }
  split.
  - intros t t' u R R' E. destruct (H _ _ _ R R' E) as [Q V]. split; [|auto]. intros D. exact (regular_plain _ _ (Q D) D).
  - intros D t t' u R R' E. destruct (H _ _ _ R R' E) as [Q V]. auto.
Qed.

Lemma div_good k : good2 A k (o_div O) (not_zero A) (div A) /\ closed2 k (div A).
Proof.
  assert (H : forall t t' u, regular k t -> regular k t' -> div A t t' = Ok u -> regular k u /\ forall f a b,
    value f (s_of A f) t = Some a -> value f (s_of A f) t' = Some b -> b <> 0k -> value f (s_of A f) u = Some (o_div O a b)).
  { intros t t' u R R' E. apply regular_good in R, R'. destruct (div_is A EA (flag k) t t' u R R' E) as [G V].
    split; [now apply regular_good|]. intros f a b. apply V. }
  split; intros t t' u R R' E; destruct (H _ _ _ R R' E); auto. split; [now apply regular_plain|]. auto.
Qed.

Lemma negate_good k : good1 A k (o_neg O) (fun _ => True) (negate A) /\ closed1 k (negate A).
Proof.
  assert (H : forall t u, regular k t -> negate A t = Ok u -> regular k u /\ forall f a, defined_at A k f ->
    value f (s_of A f) t = Some a -> value f (s_of A f) u = Some (o_neg O a)).
  { intros t u R E. apply regular_good in R. destruct (negate_is A EA (flag k) t u R E) as [G V].
    split; [now apply regular_good|]. intros f a D. apply V. now apply defined_nz. }
  split; intros t u R E; destruct (H _ _ R E); auto. split; [now apply regular_plain|]. auto.
Qed.

Lemma invert_good k : good1 A k (fun a => o_div O 1k a) (not_zero A) (invert A) /\ closed1 k (invert A).
Proof.
  assert (H : forall t u, regular k t -> invert A t = Ok u -> regular k u /\ forall f a,
    value f (s_of A f) t = Some a -> a <> 0k -> value f (s_of A f) u = Some (o_div O 1k a)).
  { intros t u R E. apply regular_good in R. destruct (invert_is A EA (flag k) t u R E) as [G V].
    split; [now apply regular_good|]. intros f a. apply V. }
  split; intros t u R E; destruct (H _ _ R E); auto. split; [now apply regular_plain|]. auto.
Qed.

Lemma abs_good k : good1 A k (o_abs O) (fun _ => True) (fun t => Ok (abs_ A t)) /\ closed1 k (fun t => Ok (abs_ A t)).
Proof.
  assert (H : forall t, regular k t -> regular k (abs_ A t) /\ forall f a,
    value f (s_of A f) t = Some a -> value f (s_of A f) (abs_ A t) = Some (o_abs O a)).
  { intros t R. apply regular_good in R. destruct (abs_ok A EA (flag k) t R) as [G V].
    split; [now apply regular_good|]. intros f a. apply V. }
  split; intros t u R [= <-]; destruct (H _ R); auto. split; [now apply regular_plain|]. auto.
Qed.

Lemma regular_constant k v : regular k (Constant v : term).
Proof. apply regular_good, good_constant. Qed.

Lemma div_errors t t' : (exists u, div A t t' = Ok u) \/ div A t t' = Err ZeroDivisionError.
Proof.
  destruct t as [v|c x|c x|xs ys i e|v x|v x|l x|m w x|l x|m w x]; cbn [div]; eauto.
  - destruct (is_null A v); eauto. destruct t'; eauto. destruct (is_null A _); eauto.
  - destruct t'; eauto. destruct (is_null A _); eauto.
  - destruct t' as [v'|c x|c x|xs' ys' i' e'|v' x|v' x|l x|m w x|l x|m w x]; eauto.
    destruct (same_bands A _ _) as [((((?, ?), ?), ?), ?)|]; eauto. destruct (existsb _ _); eauto.
Qed.

Lemma invert_errors t : (exists u, invert A t = Ok u) \/ invert A t = Err ZeroDivisionError.
Proof. destruct t; cbn [invert]; eauto; [destruct (is_null A _)|destruct (existsb _ _)]; eauto. Qed.

(** Division raises an exception only if the divisor is zero somewhere. *)

(** ** Operators of filters *)

Lemma plus_total t t' : exists u, plus A t t' = Ok u.
Proof. destruct (plus_stable A t t') as (u & E & _). eauto. Qed.
Lemma minus_total t t' : exists u, minus A t t' = Ok u.
Proof. destruct (minus_stable A t t') as (u & E & _). eauto. Qed.
Lemma times_total t t' : exists u, times A t t' = Ok u.
Proof. destruct (times_stable A t t') as (u & E & _). eauto. Qed.
Lemma negate_total t : exists u, negate A t = Ok u.
Proof. destruct (negate_stable A t) as (u & E & _). eauto. Qed.

Lemma filter_add_ok k F G : regular_filter k F -> regular_filter k G -> compatible (f_count F) (f_count G) ->
  exists H, filter_add A F G = Ok H /\ pointwise2 A junk k (o_add O) always F G H /\ labels_of "Sum" H /\ regular_filter k H.
Proof.
  intros RF RG C. destruct (filter_algebra_total (plus A) "Sum" F G plus_total C) as [H E]. exists H. split; [exact E|].
  destruct (plus_good k) as [P Q]. split; [eapply pointwise_algebra; eauto|]. split.
  - now apply filter_algebra_ok in E.
  - eapply regular_algebra; [|exact RF|exact RG|exact E]; auto.
Qed.

Lemma filter_sub_ok k F G : regular_filter k F -> regular_filter k G -> compatible (f_count F) (f_count G) ->
  exists H, filter_sub A F G = Ok H /\ pointwise2 A junk k (o_sub O) always F G H /\ labels_of "Difference" H /\
            (k = Untransformed -> regular_filter k H).
Proof.
  intros RF RG C. destruct (filter_algebra_total (minus A) "Difference" F G minus_total C) as [H E]. exists H. split; [exact E|].
  destruct (minus_good k) as [P Q]. split; [eapply pointwise_algebra; eauto|]. split.
  - now apply filter_algebra_ok in E.
  - intros D. eapply regular_algebra; [|exact RF|exact RG|exact E]; auto.
Qed.

Lemma filter_mul_ok k F G : regular_filter k F -> regular_filter k G -> compatible (f_count F) (f_count G) ->
  exists H, filter_mul A F G = Ok H /\ pointwise2 A junk k (o_mul O) always F G H /\ labels_of "Product" H /\ regular_filter k H.
Proof.
  intros RF RG C. destruct (filter_algebra_total (times A) "Product" F G times_total C) as [H E]. exists H. split; [exact E|].
  destruct (times_good k) as [P Q]. split; [eapply pointwise_algebra; eauto|]. split.
  - now apply filter_algebra_ok in E.
  - eapply regular_algebra; [|exact RF|exact RG|exact E]; auto.
Qed.

Lemma filter_div_ok k F G : regular_filter k F -> regular_filter k G -> compatible (f_count F) (f_count G) ->
  filter_div A F G = Err ZeroDivisionError \/
  exists H, filter_div A F G = Ok H /\ pointwise2 A junk k (o_div O) (not_zero A) F G H /\ labels_of "Quotient" H /\ regular_filter k H.
Proof.
  intros RF RG C. destruct (filter_algebra_errors (div A) "Quotient" ZeroDivisionError F G div_errors C) as [[H E]|E]; [|now left]. right. exists H. split; [exact E|].
  destruct (div_good k) as [P Q]. split; [eapply pointwise_algebra; eauto|]. split.
  - now apply filter_algebra_ok in E.
  - eapply regular_algebra; [|exact RF|exact RG|exact E]; auto.
Qed.

(** Operations with a number *)
Lemma number_good k op defined g v : good2 A k op defined g -> defined v -> good1 A k (fun a => op a v) (fun _ => True) (fun t => g t (Constant v)).
Proof.
  intros G D t u R E. destruct (G t (Constant v) u R (regular_constant k v) E) as [P V]. split; auto.
Qed.
Lemma number_good_left k op defined g v : good2 A k op defined g -> good1 A k (fun a => op v a) defined (fun t => g (Constant v) t).
Proof.
  intros G t u R E. destruct (G (Constant v) t u (regular_constant k v) R E) as [P V]. split; auto.
Qed.
Lemma number_closed k (g : term -> term -> result term) v : closed2 k g -> closed1 k (fun t => g t (Constant v)).
Proof. intros C t u R E. eapply C; [| |exact E]; auto. apply regular_constant. Qed.
Lemma number_closed_left k (g : term -> term -> result term) v : closed2 k g -> closed1 k (fun t => g (Constant v) t).
Proof. intros C t u R E. eapply C; [| |exact E]; auto. apply regular_constant. Qed.

Lemma map_ok k op defined g F : (forall t, exists u, g t = Ok u) -> good1 A k op defined g -> regular_filter k F ->
  exists H, filter_map g F = Ok H /\ pointwise1 A junk k op defined F H /\ (labelled F -> f_labels H = f_labels F) /\ (closed1 k g -> regular_filter k H).
Proof.
  intros T G R. destruct (filter_map_total g F T) as [H E]. exists H. split; auto. split; [eapply pointwise_map; eauto|]. split.
  - now apply filter_map_ok in E.
  - intros C. eapply regular_map; eauto.
Qed.

Lemma same_ok k op F : (forall a, op a = a) -> pointwise1 A junk k op always F F.
Proof. intros E. split; auto. intros c f a _ _ V _. now rewrite E. Qed.

Lemma filter_add_number_ok k F v : regular_filter k F ->
  exists H, filter_add_number A F v = Ok H /\ pointwise1 A junk k (fun a => o_add O a v) always F H /\ (labelled F -> f_labels H = f_labels F) /\ regular_filter k H.
Proof.
  intros R. unfold filter_add_number. destruct (is_null A v) eqn:Z.
  - apply (is_null_eq A EA) in Z as ->. exists F. split; auto. split; [apply same_ok; intros; ring|]. auto.
  - destruct (plus_good k) as [P Q]. destruct (map_ok k (fun a => o_add O a v) always (fun t => plus A t (Constant v)) F) as (H & E & V & L & C); auto.
    + intros t. apply plus_total.
    + now apply (number_good k _ (fun _ => True)).
    + exists H. split; auto. split; auto. split; auto. apply C. now apply number_closed.
Qed.

Lemma filter_sub_number_ok k F v : regular_filter k F ->
  exists H, filter_sub_number A F v = Ok H /\ pointwise1 A junk k (fun a => o_sub O a v) always F H /\ (labelled F -> f_labels H = f_labels F) /\
            (k = Untransformed -> regular_filter k H).
Proof.
  intros R. unfold filter_sub_number. destruct (is_null A v) eqn:Z.
  - apply (is_null_eq A EA) in Z as ->. exists F. split; auto. split; [apply same_ok; intros; ring|]. auto.
  - destruct (minus_good k) as [P Q]. destruct (map_ok k (fun a => o_sub O a v) always (fun t => minus A t (Constant v)) F) as (H & E & V & L & C); auto.
    + intros t. apply minus_total.
    + now apply (number_good k _ (fun _ => True)).
    + exists H. split; auto. split; auto. split; auto. intros D. apply C. now apply number_closed, Q.
Qed.

Lemma filter_rsub_number_ok k F v : regular_filter k F ->
  exists H, filter_rsub_number A F v = Ok H /\ pointwise1 A junk k (fun a => o_sub O v a) always F H /\ (labelled F -> f_labels H = f_labels F) /\
            (k = Untransformed -> regular_filter k H).
Proof.
  intros R. unfold filter_rsub_number.
  destruct (minus_good k) as [P Q]. destruct (map_ok k (fun a => o_sub O v a) always (fun t => minus A (Constant v) t) F) as (H & E & V & L & C); auto.
  - intros t. apply minus_total.
  - now apply (number_good_left k _ (fun _ => True)).
  - exists H. split; auto. split; auto. split; auto. intros D. apply C. now apply number_closed_left, Q.
Qed.

Lemma filter_mul_number_ok k F v : regular_filter k F ->
  exists H, filter_mul_number A F v = Ok H /\ pointwise1 A junk k (fun a => o_mul O a v) always F H /\ (labelled F -> f_labels H = f_labels F) /\ regular_filter k H.
Proof.
  intros R. unfold filter_mul_number. destruct (o_eqb O v 1k) eqn:Z.
  - apply (exact_eqb A EA) in Z as ->. exists F. split; auto. split; [apply same_ok; intros; ring|]. auto.
  - destruct (times_good k) as [P Q]. destruct (map_ok k (fun a => o_mul O a v) always (fun t => times A t (Constant v)) F) as (H & E & V & L & C); auto.
    + intros t. apply times_total.
    + now apply (number_good k _ (fun _ => True)).
    + exists H. split; auto. split; auto. split; auto. apply C. now apply number_closed.
Qed.

Lemma div_number_total v t : v <> 0k -> exists u, div A t (Constant v) = Ok u.
Proof.
  intros N. apply (is_null_neq A EA) in N. destruct t as [w| | | | | | | | | ]; cbn [div]; rewrite ?N; eauto. destruct (is_null A w); eauto.
Qed.

Lemma filter_div_number_ok k F v : regular_filter k F -> v <> 0k ->
  exists H, filter_div_number A F v = Ok H /\ pointwise1 A junk k (fun a => o_div O a v) always F H /\ (labelled F -> f_labels H = f_labels F) /\ regular_filter k H.
Proof.
  intros R N. unfold filter_div_number. destruct (o_eqb O v 1k) eqn:Z.
  - apply (exact_eqb A EA) in Z as ->. exists F. split; auto. split; [apply same_ok; intros; field; apply (one_neq_zero A EA)|]. auto.
  - destruct (div_good k) as [P Q]. destruct (map_ok k (fun a => o_div O a v) always (fun t => div A t (Constant v)) F) as (H & E & V & L & C); auto.
    + intros t. now apply div_number_total.
    + now apply (number_good k _ (not_zero A)).
    + exists H. split; auto. split; auto. split; auto. apply C. now apply number_closed.
Qed.

Lemma filter_rdiv_number_ok k F v : regular_filter k F ->
  filter_rdiv_number A F v = Err ZeroDivisionError \/
  exists H, filter_rdiv_number A F v = Ok H /\ pointwise1 A junk k (fun a => o_div O v a) (not_zero A) F H /\ (labelled F -> f_labels H = f_labels F) /\ regular_filter k H.
Proof.
  intros R. unfold filter_rdiv_number. destruct (div_good k) as [P Q].
  destruct (filter_map_errors (fun t => div A (Constant v) t) ZeroDivisionError F) as [[H E]|E]; [intros t; apply div_errors| |now left].
  right. exists H. split; auto. split; [eapply pointwise_map; eauto; eapply number_good_left; eauto|]. split.
  - now apply filter_map_ok in E.
  - eapply regular_map; eauto. now apply number_closed_left.
Qed.

Lemma filter_neg_ok k F : regular_filter k F ->
  exists H, filter_neg A F = Ok H /\ pointwise1 A junk k (o_neg O) always F H /\ (labelled F -> f_labels H = f_labels F) /\ regular_filter k H.
Proof.
  intros R. destruct (negate_good k) as [P Q]. destruct (map_ok k (o_neg O) always (negate A) F) as (H & E & V & L & C); auto using negate_total. exists H. auto.
Qed.

Lemma filter_abs_ok k F : regular_filter k F ->
  exists H, filter_abs A F = Ok H /\ pointwise1 A junk k (o_abs O) always F H /\ (labelled F -> f_labels H = f_labels F) /\ regular_filter k H.
Proof.
  intros R. destruct (abs_good k) as [P Q]. destruct (map_ok k (o_abs O) always (fun t => Ok (abs_ A t)) F) as (H & E & V & L & C); eauto. exists H. auto.
Qed.

Lemma filter_invert_ok k F : regular_filter k F ->
  filter_invert A F = Err ZeroDivisionError \/
  exists H, filter_invert A F = Ok H /\ pointwise1 A junk k (fun a => o_div O 1k a) (not_zero A) F H /\ (labelled F -> f_labels H = f_labels F) /\ regular_filter k H.
Proof.
  intros R. destruct (invert_good k) as [P Q].
  destruct (filter_map_errors (invert A) ZeroDivisionError F invert_errors) as [[H E]|E]; [|now left].
  right. exists H. split; auto. split; [eapply pointwise_map; eauto|]. split.
  - now apply filter_map_ok in E.
  - eapply regular_map; eauto.
Qed.

(** ** Factories *)

Lemma same_of_values k t u : plain k t -> plain k u -> (forall f a, defined_at A k f -> value f (s_of A f) t = Some a -> value f (s_of A f) u = Some a) ->
  same_response A junk k t u.
Proof. intros T U H f a D. rewrite !(evaluate_value A EA junk k) by auto. auto. Qed.

Lemma allowed_plain k t : allowed k (transform t) -> (k = Untransformed -> every (@untransformed K X) (t : term)) -> plain k t.
Proof. auto. Qed.

Lemma Forall_regular k (l : list term) : Forall (regular k) l <-> Forall (every (good_node (flag k))) l.
Proof. destruct k; reflexivity. Qed.

Lemma sum_regular k (l : list term) x : allowed k x -> Forall (regular k) l -> regular k (Sum l x).
Proof. intros H R. apply regular_good, good_sum_okay; [now apply allowed_okay|now apply Forall_regular]. Qed.
Lemma product_regular k (l : list term) x : allowed k x -> Forall (regular k) l -> regular k (Product l x).
Proof. intros H R. apply regular_good, good_product_okay; [now apply allowed_okay|now apply Forall_regular]. Qed.

Lemma bind_total {Y Z} (r : result Y) (f : Y -> result Z) : (exists y, r = Ok y) -> (forall y, exists z, f y = Ok z) -> exists z, bind r f = Ok z.
Proof. intros [y ->] H. cbn. auto. Qed.

Lemma invert_transform_total t : exists u, invert_transform A t = Ok u.
Proof. destruct (invert_transform_stable A t) as (u & E & _). eauto. Qed.

Lemma sum_factory_total l x : exists u, sum_factory A l x = Ok u.
Proof.
  unfold sum_factory, sum_factory_. destruct (List.filter _ l) as [|a [|b [|c r]]]; eauto.
  - destruct x; eauto using invert_transform_total.
  - destruct x; [|apply plus_total]. apply bind_total; [apply invert_transform_total|]. intros y. apply bind_total; [apply invert_transform_total|]. intros; apply plus_total.
Qed.

Lemma product_factory_total l x : exists u, product_factory A l x = Ok u.
Proof.
  unfold product_factory, product_factory_. destruct (_ || _); eauto. destruct l as [|a [|b [|c r]]]; eauto.
  - destruct x; eauto using invert_transform_total.
  - destruct x; [|apply times_total]. apply bind_total; [apply invert_transform_total|]. intros y. apply bind_total; [apply invert_transform_total|]. intros; apply times_total.
Qed.

Lemma sum_factory_good k l x : allowed k x -> Forall (regular k) l ->
  exists u, sum_factory A l x = Ok u /\ regular k u /\ same_response A junk k (Sum l x) u.
Proof.
  intros Q R. destruct (sum_factory_total l x) as [u E]. exists u. split; auto.
  destruct (sum_factory_ok A EA (flag k) (invert_transform A) (plus A) l x u (invert_transform_is A EA _) (plus_is A EA _) (proj1 (allowed_okay k x) Q)
    (proj1 (Forall_regular k l) R) E) as [G V].
  split; [now apply regular_good|]. apply same_of_values.
  - now apply regular_plain, sum_regular.
  - now apply regular_plain, regular_good.
  - intros f a D W. apply V; [now apply defined_nz|]. now rewrite value_sum in W.
Qed.

Lemma product_factory_good k l x : allowed k x -> Forall (regular k) l ->
  exists u, product_factory A l x = Ok u /\ regular k u /\ same_response A junk k (Product l x) u.
Proof.
  intros Q R. destruct (product_factory_total l x) as [u E]. exists u. split; auto.
  destruct (product_factory_ok A EA (flag k) (invert_transform A) (times A) l x u (invert_transform_is A EA _) (times_is A EA _) (proj1 (allowed_okay k x) Q)
    (proj1 (Forall_regular k l) R) E) as [G V].
  split; [now apply regular_good|]. apply same_of_values.
  - now apply regular_plain, product_regular.
  - now apply regular_plain, regular_good.
  - intros f a D W. apply V; [now apply defined_nz|]. destruct l; [exact W|]. unfold product_value. rewrite value_product in W |- * by easy. exact W.
Qed.

Lemma quotient_factory_good k a b x : allowed k x -> regular k a -> regular k b ->
  regular k (quotient_factory A a b x) /\ same_response A junk k (Quotient a b x) (quotient_factory A a b x).
Proof.
  intros Q Ra Rb. apply regular_good in Ra, Rb. apply allowed_okay in Q. destruct (quotient_factory_ok A EA (flag k) a b x Q Ra Rb) as [G V].
  split; [now apply regular_good|]. apply same_of_values.
  - apply regular_plain, regular_good, good_quotient_okay; auto.
  - now apply regular_plain, regular_good.
  - intros f v D W. now apply V.
Qed.

Lemma polynomial_factory_good k c x : allowed k x -> c <> [] ->
  regular k (polynomial_factory A c x : term) /\ forall f, defined_at A k f -> evaluate A junk (polynomial_factory A c x) f = evaluate A junk (Polynomial c x) f.
Proof.
  intros Q N. apply allowed_okay in Q. destruct (polynomial_factory_ok (X:=X) A EA (flag k) c x Q) as [G V].
  split; [now apply regular_good|]. intros f D.
  rewrite !(evaluate_value A EA junk k) by (auto; apply regular_plain, regular_good; auto; now apply good_polynomial_okay). now rewrite V.
Qed.

Lemma exp_factory_good k c x : allowed k x ->
  regular k (exp_factory A c x : term) /\ forall f, defined_at A k f -> evaluate A junk (exp_factory A c x) f = evaluate A junk (Exp c x) f.
Proof.
  intros Q. apply allowed_okay in Q. destruct (exp_factory_ok (X:=X) A EA (flag k) c x Q) as [G V].
  split; [now apply regular_good|]. intros f D.
  rewrite !(evaluate_value A EA junk k) by (auto; apply regular_plain, regular_good; auto; now apply good_exp_okay). now rewrite V.
Qed.

Lemma absolute_factory_good k v x : allowed k x -> regular k v ->
  exists u, absolute_factory A v x = Ok u /\ regular k u /\ same_response A junk k (Absolute v x) u.
Proof.
  intros Q R. apply regular_good in R. unfold absolute_factory.
  assert (P : plain k (Absolute v x)).
  { intros ->. cbn in Q. subst. split; [reflexivity|]. exact (regular_plain Untransformed v (proj2 (regular_good Untransformed v) R) eq_refl). }
  assert (H : exists w, (if x then w <- invert_transform A v ;; Ok (abs_ A w) else Ok (abs_ A v)) = Ok (abs_ A w) /\ every (good_node (flag k)) w /\
      forall f a, defined_at A k f -> value f (var A x (s_of A f)) v = Some a -> value f (s_of A f) w = Some a).
  { destruct x; [|exists v; auto]. destruct (invert_transform_total v) as [w E]. rewrite E. exists w. cbn.
    apply allowed_okay in Q. pose proof (okay_true (flag k) true Q eq_refl) as D. destruct (invert_transform_is A EA _ D v w R E) as [G V].
    split; auto. split; auto. intros f a Df. apply V. now apply defined_nz. }
  destruct H as (w & E & G & V). exists (abs_ A w). split; auto. destruct (abs_ok A EA _ w G) as [G' V'].
  split; [now apply regular_good|]. apply same_of_values; auto; [now apply regular_plain, regular_good|].
  intros f a D W. cbn [TermsSpec.value transform] in W. apply lift_some in W as (b & W & ->). apply V', V; auto.
Qed.

Lemma negative_factory_good k v x : allowed k x -> regular k v ->
  exists u, negative_factory A v x = Ok u /\ regular k u /\ same_response A junk k (Negative v x) u.
Proof.
  intros Q R. apply regular_good in R. unfold negative_factory.
  assert (P : plain k (Negative v x)).
  { intros ->. cbn in Q. subst. split; [reflexivity|]. exact (regular_plain Untransformed v (proj2 (regular_good Untransformed v) R) eq_refl). }
  assert (H : exists w, (if x then w <- invert_transform A v ;; negate A w else negate A v) = negate A w /\ every (good_node (flag k)) w /\
      forall f a, defined_at A k f -> value f (var A x (s_of A f)) v = Some a -> value f (s_of A f) w = Some a).
  { destruct x; [|exists v; auto]. destruct (invert_transform_total v) as [w E]. rewrite E. exists w. cbn.
    apply allowed_okay in Q. pose proof (okay_true (flag k) true Q eq_refl) as D. destruct (invert_transform_is A EA _ D v w R E) as [G V].
    split; auto. split; auto. intros f a Df. apply V. now apply defined_nz. }
  destruct H as (w & E & G & V). rewrite E. destruct (negate_total w) as [u E']. exists u. split; auto. destruct (negate_is A EA _ w u G E') as [G' V'].
  split; [now apply regular_good|]. apply same_of_values; auto; [now apply regular_plain, regular_good|].
  intros f a D W. cbn [TermsSpec.value transform] in W. apply lift_some in W as (b & W & ->). apply V'; [now apply defined_nz|]. apply V; auto.
Qed.

(** The transform of a difference is dropped if only the minuend is zero. *)
Lemma difference_factory_good k m s x : allowed k x -> regular k m -> regular k s -> (x = true -> is_zero A m = true -> is_zero A s = true) ->
  exists u, difference_factory A m s x = Ok u /\ (k = Untransformed -> regular k u) /\ same_response A junk k (Difference m s x) u.
Proof.
  intros Q Rm Rs Z0. pose proof (proj1 (regular_good k m) Rm) as Gm. pose proof (proj1 (regular_good k s) Rs) as Gs.
  assert (P : plain k (Difference m s x)).
  { intros ->. cbn in Q. subst. split; [reflexivity|]. split; [exact (regular_plain _ _ Rm eq_refl)|exact (regular_plain _ _ Rs eq_refl)]. }
  assert (Val : forall f v, value f (s_of A f) (Difference m s x) = Some v -> exists b c, value f (var A x (s_of A f)) m = Some b /\
      value f (var A x (s_of A f)) s = Some c /\ v = o_sub O b c).
  { intros f v W. cbn [TermsSpec.value transform] in W. now apply lift2_some in W. }
  unfold difference_factory, difference_factory_. destruct (is_zero A s) eqn:Zs; [destruct (is_zero A m) eqn:Zm|].
  - exists (Constant 0k). split; auto. split; [intros _; apply regular_constant|]. apply same_of_values; auto; [intros _; now split|].
    intros f v D W. destruct (Val f v W) as (b & c & B & C & ->).
    rewrite (is_zero_sound A EA f m _ b (good_proper _ _ Gm) Zm B), (is_zero_sound A EA f s _ c (good_proper _ _ Gs) Zs C). cbn. f_equal. ring.
  - assert (H : exists w, (if x then invert_transform A m else Ok m) = Ok w /\ every (good_node (flag k)) w /\
        forall f a, defined_at A k f -> value f (var A x (s_of A f)) m = Some a -> value f (s_of A f) w = Some a).
    { destruct x; [|exists m; auto]. destruct (invert_transform_total m) as [w E]. rewrite E. exists w.
      apply allowed_okay in Q. pose proof (okay_true (flag k) true Q eq_refl) as D. destruct (invert_transform_is A EA _ D m w Gm E) as [G V].
      split; auto. split; auto. intros f a Df. apply V. now apply defined_nz. }
    destruct H as (w & E & G & V). exists w. split; auto. split; [intros _; now apply regular_good|].
    apply same_of_values; auto; [now apply regular_plain, regular_good|]. intros f v D W. destruct (Val f v W) as (b & c & B & C & ->).
    rewrite (is_zero_sound A EA f s _ c (good_proper _ _ Gs) Zs C). rewrite (V f b D B). f_equal. ring.
  - destruct (is_zero A m) eqn:Zm.
    + destruct x; [now specialize (Z0 eq_refl eq_refl)|]. destruct (negate_total s) as [u E]. exists u. split; auto.
      destruct (negate_is A EA _ s u Gs E) as [G V]. split; [intros _; now apply regular_good|].
      apply same_of_values; auto; [now apply regular_plain, regular_good|]. intros f v D W. destruct (Val f v W) as (b & c & B & C & ->).
      rewrite (is_zero_sound A EA f m _ b (good_proper _ _ Gm) Zm B). rewrite (V f _ c (proj1 (defined_nz A k f) D) C). f_equal. ring.
    + destruct (equal A m s) eqn:Eq.
      * exists (Constant 0k). split; auto. split; [intros _; apply regular_constant|]. apply same_of_values; auto; [intros _; now split|].
        intros f v D W. destruct (Val f v W) as (b & c & B & C & ->).
        rewrite (equal_sound A EA f m s _ b c (good_proper _ _ Gm) (good_proper _ _ Gs) Eq B C). cbn. f_equal. ring.
      * exists (Difference m s x). split; auto. split; [|intros f a D W; exact W]. intros ->. cbn in Q. subst. apply regular_good, good_difference; auto.
Qed.

Lemma difference_factory_value D m s : D = true -> every (good_node D) m -> every (good_node D) s ->
  exists u, difference_factory A m s false = Ok u /\ every (good_node D) u /\
    forall f v b c, value f v m = Some b -> value f v s = Some c -> value f v u = Some (o_sub O b c).
Proof.
  intros ED Gm Gs. unfold difference_factory, difference_factory_. destruct (is_zero A s) eqn:Zs; [destruct (is_zero A m) eqn:Zm|].
  - exists (Constant 0k). split; auto. split; [apply good_constant|]. intros f v b c B C.
    rewrite (is_zero_sound A EA f m _ b (good_proper _ _ Gm) Zm B), (is_zero_sound A EA f s _ c (good_proper _ _ Gs) Zs C). cbn. f_equal. ring.
  - exists m. split; auto. split; auto. intros f v b c B C. rewrite (is_zero_sound A EA f s _ c (good_proper _ _ Gs) Zs C), B. f_equal. ring.
  - destruct (is_zero A m) eqn:Zm.
    + destruct (negate_total s) as [u E]. exists u. split; auto. destruct (negate_is A EA _ s u Gs E) as [G V]. split; auto. intros f v b c B C.
      rewrite (is_zero_sound A EA f m _ b (good_proper _ _ Gm) Zm B). rewrite (V f v c) by (auto; intros E'; congruence). f_equal. ring.
    + destruct (equal A m s) eqn:Eq.
      * exists (Constant 0k). split; auto. split; [apply good_constant|]. intros f v b c B C.
        rewrite (equal_sound A EA f m s _ b c (good_proper _ _ Gm) (good_proper _ _ Gs) Eq B C). cbn. f_equal. ring.
      * exists (Difference m s false). split; auto. split; [now apply good_difference|]. intros f v b c B C. cbn [TermsSpec.value transform]. now rewrite B, C.
Qed.

(** ** Transform *)

Lemma invert_transform_good t : regular NoDifferences t ->
  exists u, invert_transform A t = Ok u /\ regular NoDifferences u /\
    forall f s a, s <> 0k -> value f (inverse A s) t = Some a -> value f s u = Some a.
Proof.
  intros R. destruct (invert_transform_total t) as [u E]. exists u. split; auto. apply regular_good in R.
  destruct (invert_transform_is A EA (flag NoDifferences) eq_refl t u R E) as [G V]. split; [now apply regular_good|].
  intros f s a N. apply V. intros _. exact N.
Qed.

Lemma invert_transform_twice t : regular NoDifferences t ->
  exists u v, invert_transform A t = Ok u /\ invert_transform A u = Ok v /\ regular NoDifferences v /\ same_response A junk NoDifferences t v.
Proof.
  intros R. destruct (invert_transform_good t R) as (u & E & Ru & V). destruct (invert_transform_good u Ru) as (v & E' & Rv & V').
  exists u, v. repeat split; auto; try apply Rv. apply same_of_values; try now apply regular_plain. intros f a D W. cbn in D.
  apply V'; auto. apply V; [now apply (inverse_neq A EA)|]. now rewrite (inverse_inverse A EA).
Qed.

End Operators.
