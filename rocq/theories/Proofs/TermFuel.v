(** The recursions of the methods of terms are not cut off. *)

From Coq Require Import ZArith List Bool Lia.
From Verif.Model Require Import Py Signal Terms.
From Verif.Proofs Require Import PyFacts TermFacts TermOperators.
Import ListNotations.
Open Scope Z_scope.

Section Fuel.
Context {K X : Type}.
Variable A : arithmetic K X.
Notation O := (k_ops A).
Notation term := (term K X).

(** ** Comparison *)

Definition total (l : list term) : nat := fold_right (fun t n => size t + n)%nat 0%nat l.

Lemma total_in t l : In t l -> (size t <= total l)%nat.
Proof. induction l as [|u l IH]; [easy|]. unfold total in *. cbn [fold_right]. intros [->|H]; [lia|]. specialize (IH H). lia. Qed.

Lemma forallb_ext_in {Y} (p q : Y -> bool) l : (forall y, In y l -> p y = q y) -> forallb p l = forallb q l.
Proof. induction l as [|y l IH]; intros H; cbn; auto. rewrite (H y (or_introl eq_refl)), IH; auto. intros; apply H; now right. Qed.

Lemma existsb_ext_in {Y} (p q : Y -> bool) l : (forall y, In y l -> p y = q y) -> existsb p l = existsb q l.
Proof. induction l as [|y l IH]; intros H; cbn; auto. rewrite (H y (or_introl eq_refl)), IH; auto. intros; apply H; now right. Qed.

Lemma size_pos (t : term) : (1 <= size t)%nat.
Proof. destruct t; cbn; lia. Qed.

Lemma is_zero_S n (t : term) : is_zero_n A (S n) t =
      match t with
      | Constant v => is_null A v
      | Polynomial c _ => forallb (is_null A) c
      | Exp _ _ => false
      | Bands xs ys _ _ => (zlen xs =? 0) || forallb (is_null A) ys
      | Absolute v _ | Negative v _ => is_zero_n A n v
      | Sum l _ => forallb (is_zero_n A n) l
      | Difference m s _ => equal_n A n m s || (is_zero_n A n m && is_zero_n A n s)
      | Product [] _ => true
      | Product l _ => existsb (is_zero_n A n) l
      | Quotient a _ _ => is_zero_n A n a
      end.
Proof. reflexivity. Qed.

Lemma equal_S n (t u : term) : equal_n A (S n) t u =
      match t, u with
      | Constant v, Constant w => (is_null A v && is_null A w) || o_eqb O v w
      | Constant v, _ => is_null A v && is_zero_n A n u
      | Polynomial c x, Polynomial d y => (zlen c =? zlen d) && negb (arrays_differ (o_eqb O) c d) && Bool.eqb x y
      | Exp c x, Exp d y => o_eqb O c d && Bool.eqb x y
      | Bands xs ys i e, Bands xs' ys' i' e' =>
          interpolation_eqb i i' && interpolation_eqb e e' && negb (arrays_differ (x_eqb A) xs xs') && negb (arrays_differ (o_eqb O) ys ys')
      | Absolute v x, Absolute w y | Negative v x, Negative w y => equal_n A n v w && Bool.eqb x y
      | Sum l x, Sum m y | Product l x, Product m y =>
          (zlen l =? zlen m) && forallb (fun p => equal_n A n (fst p) (snd p)) (combine l m) && Bool.eqb x y
      | Difference a b x, Difference c d y | Quotient a b x, Quotient c d y => equal_n A n a c && equal_n A n b d && Bool.eqb x y
      | _, _ => false
      end.
Proof. reflexivity. Qed.

Lemma comparison_stable n :
  (forall (t : term) m, (size t <= n)%nat -> (n <= m)%nat -> is_zero_n A n t = is_zero_n A m t) /\
  (forall (t u : term) m, (size t + size u <= n)%nat -> (n <= m)%nat -> equal_n A n t u = equal_n A m t u).
Proof.
  induction n as [|n [IZ IE]]; [split; intros; pose proof (size_pos t); lia|]. split.
  - intros t [|m] S M; [lia|]. destruct t as [v|c x|c x|xs ys i e|v x|v x|l x|p q x|l x|p q x]; rewrite !is_zero_S; cbn [size] in *; auto; change (fold_right (fun (t : term) n => (size t + n)%nat) 0%nat) with total in *.
    + apply IZ; lia.
    + apply IZ; lia.
    + apply forallb_ext_in. intros t I. pose proof (total_in t l I). apply IZ; lia.
    + rewrite (IE p q m), (IZ p m), (IZ q m); auto; lia.
    + destruct l as [|t0 l0] eqn:El; auto. rewrite <- El in *. apply existsb_ext_in. intros t I. pose proof (total_in t l I). apply IZ; lia.
    + apply IZ; lia.
  - intros t u [|m] S M; [lia|].
    assert (LE : forall l l' : list term, (total l + total l' <= n)%nat ->
      forallb (fun p => equal_n A n (fst p) (snd p)) (combine l l') = forallb (fun p => equal_n A m (fst p) (snd p)) (combine l l')).
    { intros l l' L. apply forallb_ext_in. intros [p q] I. cbn [fst snd]. pose proof (total_in p l (in_combine_l _ _ _ _ I)). pose proof (total_in q l' (in_combine_r _ _ _ _ I)).
      apply IE; lia. }
    destruct t as [v|c x|c x|xs ys i e|v x|v x|l x|p q x|l x|p q x], u as [w|d y|d y|xs' ys' i' e'|w y|w y|l' y|p' q' y|l' y|p' q' y]; rewrite !equal_S; auto;
      cbn [size] in S; change (fold_right (fun (t : term) n => (size t + n)%nat) 0%nat) with total in *.
    all: try (rewrite (IZ _ m); auto; cbn [size]; change (fold_right (fun (t : term) n => (size t + n)%nat) 0%nat) with total in *; lia).
    all: try (rewrite (IE _ _ m) by lia; reflexivity).
    all: try (rewrite (LE l l') by lia; reflexivity).
    all: rewrite (IE p p' m), (IE q q' m) by lia; reflexivity.
Qed.

Lemma is_zero_stable (t : term) n : (size t <= n)%nat -> is_zero_n A n t = is_zero A t.
Proof. intros H. symmetry. unfold is_zero. now apply comparison_stable. Qed.

Lemma equal_stable (t u : term) n : (size t + size u <= n)%nat -> equal_n A n t u = equal A t u.
Proof. intros H. symmetry. unfold equal. now apply comparison_stable. Qed.

(** ** Operators *)

Definition heft (l : list term) : nat := fold_right (fun t n => weight t + n)%nat 0%nat l.

Lemma heft_in t l : In t l -> (weight t <= heft l)%nat.
Proof. induction l as [|u l IH]; [easy|]. unfold heft in *. cbn [fold_right]. intros [->|H]; [lia|]. specialize (IH H). lia. Qed.

Lemma heft_app l m : heft (l ++ m) = (heft l + heft m)%nat.
Proof. unfold heft. induction l as [|t l IH]; cbn [fold_right app]; auto. rewrite IH. lia. Qed.

Lemma heft_cons t l : heft (t :: l) = (weight t + heft l)%nat.
Proof. reflexivity. Qed.

Lemma heft_nil : heft [] = 0%nat.
Proof. reflexivity. Qed.

Lemma heft_filter p l : (heft (filter p l) <= heft l)%nat.
Proof. unfold heft. induction l as [|t l IH]; cbn [fold_right filter]; auto. destruct (p t); cbn [fold_right]; lia. Qed.

Lemma weight_pos (t : term) : (2 <= weight t)%nat.
Proof. destruct t; cbn; lia. Qed.

Lemma weight_abs (t : term) : (weight (abs_ A t) <= 2 + weight t)%nat.
Proof. destruct t; cbn; lia. Qed.

Lemma weight_polynomial_factory c x : (weight (polynomial_factory A c x : term) = 2)%nat.
Proof. unfold polynomial_factory. now destruct (drop_zeros A c) as [|? [|]]. Qed.

Lemma weight_exp_factory c x : (weight (exp_factory A c x : term) = 2)%nat.
Proof. unfold exp_factory. now destruct (is_null A c). Qed.

Lemma weight_quotient_factory (a b : term) x : (weight (quotient_factory A a b x) <= 2 + (weight a + weight b))%nat.
Proof. unfold quotient_factory. destruct (is_zero A a), (equal A a b); cbn; lia. Qed.

Definition returns (r : result term) (w : nat) : Prop := exists u, r = Ok u /\ (weight u <= w)%nat.

Lemma sequence_returns (F : term -> result term) l :
  (forall t, In t l -> returns (F t) (weight t)) -> exists m, sequence (map F l) = Ok m /\ (heft m <= heft l)%nat.
Proof.
  induction l as [|t l IH]; intros H; [exists []; split; auto|].
  destruct (H t (or_introl eq_refl)) as (u & E & W). destruct IH as (m & E' & W'); [intros; apply H; now right|].
  exists (u :: m). cbn [map sequence]. rewrite E. cbn [bind]. rewrite E'. cbn [bind]. split; [reflexivity|rewrite !heft_cons; lia].
Qed.

Lemma inv_S n (t : term) : inv A (S n) t =
      match t with
      | Constant _ | Bands _ _ _ _ => Ok t
      | Polynomial c x => Ok (polynomial_factory A c (negb x))
      | Exp c x => Ok (exp_factory A c (negb x))
      | Absolute v x => if negb x then v <- inv A n v ;; Ok (abs_ A v) else Ok (abs_ A v)
      | Negative v x => if negb x then v <- inv A n v ;; neg A n v else neg A n v
      | Sum l x => sum_factory_ A (inv A n) (add A n) l (negb x)
      | Difference m s x => difference_factory_ A (inv A n) (neg A n) m s (negb x)
      | Product l x => product_factory_ A (inv A n) (mul A n) l (negb x)
      | Quotient a b x => Ok (quotient_factory A a b (negb x))
      end.
Proof. reflexivity. Qed.

Lemma neg_S n (t : term) : neg A (S n) t =
      match t with
      | Constant v => Ok (Constant (o_neg O v))
      | Bands xs ys i e =>
          if non_negative i || non_negative e then Ok (Difference (Constant (o_zero O)) t false)
          else Ok (Bands xs (map (o_neg O) ys) i e)
      | Negative v x => if x then inv A n v else Ok v
      | Difference m s x => Ok (Difference s m x)
      | _ => Ok (Negative t false)
      end.
Proof. reflexivity. Qed.

Lemma add_S n (t u : term) : add A (S n) t u =
      match t with
      | Constant v =>
          if is_null A v then Ok u
          else match u with Constant w => Ok (Constant (o_add O v w)) | _ => Ok (Sum [t; u] false) end
      | Polynomial c x =>
          match u with
          | Polynomial d y => if Bool.eqb x y then Ok (Polynomial (poly2 A (o_add O) c d) x) else Ok (Sum [t; u] false)
          | Constant w => if zlen c =? 0 then neg A n u else Ok (Polynomial (at_last (o_add O) c w) x)
          | _ => Ok (Sum [t; u] false)
          end
      | Bands _ _ _ _ =>
          match same_bands A t u with
          | Some (xs, ys, ys', i, e) => Ok (Bands xs (map2 (o_add O) ys ys') i e)
          | None => Ok (Sum [t; u] false)
          end
      | Sum [] _ => Ok u
      | Sum l x =>
          match u with
          | Sum m y => if Bool.eqb x y then Ok (Sum (l ++ m) x) else l <- (if x then sequence (map (inv A n) l) else Ok l) ;; Ok (Sum (l ++ [u]) false)
          | _ => l <- (if x then sequence (map (inv A n) l) else Ok l) ;; Ok (Sum (l ++ [u]) false)
          end
      | Difference m s x =>
          u <- (if x then inv A n u else Ok u) ;;
          m <- add A n m u ;;
          Ok (Difference m s x)
      | _ => Ok (Sum [t; u] false)
      end.
Proof. reflexivity. Qed.

Lemma mul_S n (t u : term) : mul A (S n) t u =
      match t with
      | Constant v =>
          if is_null A v then Ok t
          else if o_eqb O v (o_one O) then Ok u
          else if o_eqb O v (o_neg O (o_one O)) then neg A n u
          else match u with Constant w => Ok (Constant (o_mul O v w)) | _ => Ok (Product [t; u] false) end
      | Polynomial c x =>
          match u with
          | Constant w => Ok (Polynomial (map (fun a => o_mul O a w) c) x)
          | _ => Ok (Product [t; u] false)
          end
      | Bands _ _ _ _ =>
          match same_bands A t u with
          | Some (xs, ys, ys', i, e) => Ok (Bands xs (map2 (o_mul O) ys ys') i e)
          | None => Ok (Product [t; u] false)
          end
      | Product l x =>
          if (zlen l =? 0) || is_zero A u then Ok (Constant (o_zero O))
          else
            match u with
            | Product m y =>
                if Bool.eqb x y then Ok (Product (l ++ m) x) else m <- sequence (map (inv A n) m) ;; Ok (Product (l ++ m) x)
            | _ => l <- (if x then sequence (map (inv A n) l) else Ok l) ;; Ok (Product (l ++ [u]) false)
            end
      | _ => Ok (Product [t; u] false)
      end.
Proof. reflexivity. Qed.

Lemma operators_return n :
  (forall t, (weight t < n)%nat -> returns (inv A n t) (weight t)) /\
  (forall t, (weight t < n)%nat -> returns (neg A n t) (4 + weight t)) /\
  (forall t u, (weight t + weight u < n)%nat -> returns (add A n t u) (2 + (weight t + weight u))) /\
  (forall t u, (weight t + weight u < n)%nat -> returns (mul A n t u) (2 + (weight t + weight u))).
Proof.
  assert (OK : forall u w, (weight u <= w)%nat -> returns (Ok u) w) by (intros u w H; now exists u).
  induction n as [|n (IV & IN & IA & IM)]; [repeat split; intros; lia|]. split; [|split; [|split]].
  - intros t H. destruct t as [v|c x|c x|xs ys i e|v x|v x|l x|p q x|l x|p q x]; rewrite inv_S; cbn [weight] in H |- *; change (fold_right (fun (t : term) n => (weight t + n)%nat) 0%nat) with heft in *.
    + apply OK; auto.
    + apply OK. now rewrite weight_polynomial_factory.
    + apply OK. now rewrite weight_exp_factory.
    + apply OK; auto.
    + destruct (negb x); [|apply OK, weight_abs]. destruct (IV v) as (u & -> & W); [lia|]. cbn. apply OK. pose proof (weight_abs u). lia.
    + destruct (negb x).
      * destruct (IV v) as (u & -> & W); [lia|]. cbn. destruct (IN u) as (u' & -> & W'); [lia|]. apply OK. lia.
      * apply IN. lia.
    + unfold sum_factory_. pose proof (heft_filter (fun s => negb (is_zero A s)) l) as F. destruct (filter _ l) as [|a [|b [|b' l']]]; rewrite ?heft_cons, ?heft_nil in F.
      * apply OK. cbn. lia.
      * destruct (negb x); [|apply OK; lia]. destruct (IV a) as (u & -> & W); [lia|]. apply OK. lia.
      * destruct (negb x); [|].
        -- destruct (IV a) as (u & -> & W); [lia|]. destruct (IV b) as (u' & -> & W'); [lia|]. cbn. destruct (IA u u') as (u'' & -> & W''); [lia|]. apply OK. lia.
        -- destruct (IA a b) as (u'' & -> & W''); [lia|]. apply OK. lia.
      * apply OK. cbn [weight fold_right]. change (fold_right (fun (t : term) n => (weight t + n)%nat) 0%nat) with heft in *. lia.
    + unfold difference_factory_. pose proof (weight_pos p). pose proof (weight_pos q). destruct (is_zero A q).
      * destruct (is_zero A p); [apply OK; cbn; lia|]. destruct (negb x); [|apply OK; lia]. destruct (IV p) as (u & -> & W); [lia|]. apply OK. lia.
      * destruct (is_zero A p); [destruct (IN q) as (u & -> & W); [lia|]; apply OK; lia|]. destruct (equal A p q); apply OK; cbn; lia.
    + unfold product_factory_. destruct ((zlen l =? 0) || existsb (is_zero A) l); [apply OK; cbn; lia|]. destruct l as [|a [|b [|b' l']]]; rewrite ?heft_cons, ?heft_nil in *.
      * apply OK. cbn. lia.
      * destruct (negb x); [|apply OK; lia]. destruct (IV a) as (u & -> & W); [lia|]. apply OK. lia.
      * destruct (negb x); [|].
        -- destruct (IV a) as (u & -> & W); [lia|]. destruct (IV b) as (u' & -> & W'); [lia|]. cbn. destruct (IM u u') as (u'' & -> & W''); [lia|]. apply OK. lia.
        -- destruct (IM a b) as (u'' & -> & W''); [lia|]. apply OK. lia.
      * apply OK. cbn [weight fold_right]. change (fold_right (fun (t : term) n => (weight t + n)%nat) 0%nat) with heft in *. lia.
    + apply OK, weight_quotient_factory.
  - intros t H. destruct t as [v|c x|c x|xs ys i e|v x|v x|l x|p q x|l x|p q x]; rewrite neg_S; cbn [weight] in H |- *; change (fold_right (fun (t : term) n => (weight t + n)%nat) 0%nat) with heft in *;
      try (apply OK; cbn; change (fold_right (fun (t : term) n => (weight t + n)%nat) 0%nat) with heft in *; lia).
    + destruct (non_negative i || non_negative e); apply OK; cbn; lia.
    + destruct x; [|apply OK; lia]. destruct (IV v) as (u & -> & W); [lia|]. apply OK. lia.
  - intros t t' H. pose proof (weight_pos t'). destruct t as [v|c x|c x|xs ys i e|v x|v x|l x|p q x|l x|p q x]; rewrite add_S; cbn [weight] in H |- *; change (fold_right (fun (t : term) n => (weight t + n)%nat) 0%nat) with heft in *;
      try (apply OK; cbn; change (fold_right (fun (t : term) n => (weight t + n)%nat) 0%nat) with heft in *; lia).
    + destruct (is_null A v); [apply OK; lia|]. destruct t'; apply OK; cbn in *; lia.
    + destruct t' as [w|d y|d y|xs' ys' i' e'|w y|w y|l' y|p' q' y|l' y|p' q' y]; try (apply OK; cbn in *; lia).
      * destruct (zlen c =? 0); [|apply OK; cbn; lia]. destruct (IN (Constant w)) as (u & -> & W); [cbn in *; lia|]. apply OK. cbn in *. lia.
      * destruct (Bool.eqb x y); apply OK; cbn in *; lia.
    + destruct (same_bands A _ t') as [((((?, ?), ?), ?), ?)|]; apply OK; cbn in *; lia.
    + assert (Q : returns (bind (if x then sequence (map (inv A n) l) else Ok l) (fun l => Ok (Sum (l ++ [t']) false))) (2 + (2 + heft l + weight t'))).
      { assert (Q : exists m, (if x then sequence (map (inv A n) l) else Ok l) = Ok m /\ (heft m <= heft l)%nat).
        { destruct x; [|eauto]. apply sequence_returns. intros t I. pose proof (heft_in t l I). apply IV. lia. }
        destruct Q as (m & -> & W). cbn. apply OK. cbn [weight]. fold (heft (m ++ [t'])). rewrite heft_app, heft_cons, heft_nil. lia. }
      destruct l as [|t0 l0] eqn:El; [apply OK; lia|]. rewrite <- El in *.
      destruct t' as [w|d y|d y|xs' ys' i' e'|w y|w y|l' y|p' q' y|l' y|p' q' y]; try exact Q.
      destruct (Bool.eqb x y); [|exact Q]. apply OK. cbn [weight]. fold (heft (l ++ l')). fold (heft l'). rewrite heft_app. lia.
    + assert (Q : exists u, (if x then inv A n t' else Ok t') = Ok u /\ (weight u <= weight t')%nat).
      { destruct x; [|eauto]. apply IV. lia. }
      destruct Q as (u & -> & W). cbn. pose proof (weight_pos q). destruct (IA p u) as (u' & -> & W'); [lia|]. cbn. apply OK. cbn. lia.
  - intros t t' H. pose proof (weight_pos t'). destruct t as [v|c x|c x|xs ys i e|v x|v x|l x|p q x|l x|p q x]; rewrite mul_S; cbn [weight] in H |- *; change (fold_right (fun (t : term) n => (weight t + n)%nat) 0%nat) with heft in *;
      try (apply OK; cbn; change (fold_right (fun (t : term) n => (weight t + n)%nat) 0%nat) with heft in *; lia).
    + destruct (is_null A v); [apply OK; cbn; lia|]. destruct (o_eqb O v _); [apply OK; cbn; lia|].
      destruct (o_eqb O v _); [destruct (IN t') as (u & -> & W); [lia|]; apply OK; lia|]. destruct t'; apply OK; cbn in *; lia.
    + destruct t' as [w|d y|d y|xs' ys' i' e'|w y|w y|l' y|p' q' y|l' y|p' q' y]; try (apply OK; cbn in *; lia).
    + destruct (same_bands A _ t') as [((((?, ?), ?), ?), ?)|]; apply OK; cbn in *; lia.
    + destruct ((zlen l =? 0) || is_zero A t'); [apply OK; cbn; lia|].
      assert (Q : returns (bind (if x then sequence (map (inv A n) l) else Ok l) (fun l => Ok (Product (l ++ [t']) false))) (2 + (2 + heft l + weight t'))).
      { assert (Q : exists m, (if x then sequence (map (inv A n) l) else Ok l) = Ok m /\ (heft m <= heft l)%nat).
        { destruct x; [|eauto]. apply sequence_returns. intros t I. pose proof (heft_in t l I). apply IV. lia. }
        destruct Q as (m & -> & W). cbn. apply OK. cbn [weight]. fold (heft (m ++ [t'])). rewrite heft_app, heft_cons, heft_nil. lia. }
      destruct t' as [w|d y|d y|xs' ys' i' e'|w y|w y|l' y|p' q' y|l' y|p' q' y]; try exact Q.
      cbn [weight] in *. fold (heft l') in *. destruct (Bool.eqb x y).
      * apply OK. cbn [weight]. fold (heft (l ++ l')). rewrite heft_app. lia.
      * destruct (sequence_returns (inv A n) l') as (m & -> & W); [intros t I; pose proof (heft_in t l' I); apply IV; lia|]. cbn. apply OK.
        cbn [weight]. fold (heft (l ++ m)). rewrite heft_app. lia.
Qed.

Lemma operators_stable n :
  (forall t u, inv A n t = Ok u -> inv A (S n) t = Ok u) /\
  (forall t u, neg A n t = Ok u -> neg A (S n) t = Ok u) /\
  (forall t t' u, add A n t t' = Ok u -> add A (S n) t t' = Ok u) /\
  (forall t t' u, mul A n t t' = Ok u -> mul A (S n) t t' = Ok u).
Proof.
  assert (SEQ : forall n, (forall t u, inv A n t = Ok u -> inv A (S n) t = Ok u) -> forall l m, sequence (map (inv A n) l) = Ok m -> sequence (map (inv A (S n)) l) = Ok m).
  { intros n0 I. induction l as [|t l IH]; intros m H; [exact H|]. cbn [map sequence] in H |- *. apply bind_ok in H as (u & E & H). apply bind_ok in H as (r & E' & H).
    now rewrite (I _ _ E), (IH _ E'). }
  induction n as [|n (IV & IN & IA & IM)]; [repeat split; discriminate|]. specialize (SEQ n IV).
  assert (SF : forall l x u, sum_factory_ A (inv A n) (add A n) l x = Ok u -> sum_factory_ A (inv A (S n)) (add A (S n)) l x = Ok u).
  { intros l x u H. unfold sum_factory_ in *. destruct (filter _ l) as [|a [|b [|b' l']]]; auto; destruct x; auto.
    apply bind_ok in H as (r & E & H). apply bind_ok in H as (r' & E' & H). rewrite (IV _ _ E). cbn [bind]. rewrite (IV _ _ E'). cbn [bind]. auto. }
  assert (PF : forall l x u, product_factory_ A (inv A n) (mul A n) l x = Ok u -> product_factory_ A (inv A (S n)) (mul A (S n)) l x = Ok u).
  { intros l x u H. unfold product_factory_ in *. destruct ((zlen l =? 0) || existsb (is_zero A) l); auto. destruct l as [|a [|b [|b' l']]]; auto; destruct x; auto.
    apply bind_ok in H as (r & E & H). apply bind_ok in H as (r' & E' & H). rewrite (IV _ _ E). cbn [bind]. rewrite (IV _ _ E'). cbn [bind]. auto. }
  assert (DF : forall p q x u, difference_factory_ A (inv A n) (neg A n) p q x = Ok u -> difference_factory_ A (inv A (S n)) (neg A (S n)) p q x = Ok u).
  { intros p q x u H. unfold difference_factory_ in *. destruct (is_zero A q), (is_zero A p); auto. destruct x; auto. }
  split; [|split; [|split]].
  - intros t u H. remember (S n) as n' eqn:En. rewrite En in H. rewrite inv_S in H |- *.
    destruct t as [v|c x|c x|xs ys i e|v x|v x|l x|p q x|l x|p q x]; auto.
    + destruct (negb x); auto. apply bind_ok in H as (r & E & H). now rewrite (IV _ _ E).
    + destruct (negb x); auto. apply bind_ok in H as (r & E & H). rewrite (IV _ _ E). cbn [bind]. auto.
  - intros t u H. remember (S n) as n' eqn:En. rewrite En in H. rewrite neg_S in H |- *.
    destruct t as [v|c x|c x|xs ys i e|v x|v x|l x|p q x|l x|p q x]; auto. destruct x; auto.
  - intros t t' u H. remember (S n) as n' eqn:En. rewrite En in H. rewrite add_S in H |- *.
    destruct t as [v|c x|c x|xs ys i e|v x|v x|l x|p q x|l x|p q x]; auto.
    + destruct t'; auto. destruct (zlen c =? 0); auto.
    + assert (Q : bind (if x then sequence (map (inv A n) l) else Ok l) (fun l => Ok (Sum (l ++ [t']) false)) = Ok u ->
                  bind (if x then sequence (map (inv A n') l) else Ok l) (fun l => Ok (Sum (l ++ [t']) false)) = Ok u).
      { clear H. intros H. destruct x; auto. apply bind_ok in H as (r & E & H). now rewrite (SEQ _ _ E). }
      destruct l as [|t0 l0]; auto. destruct t' as [w|d y|d y|xs' ys' i' e'|w y|w y|l' y|p' q' y|l' y|p' q' y]; auto. destruct (Bool.eqb x y); auto.
    + destruct x.
      * apply bind_ok in H as (r & E & H). apply bind_ok in H as (r' & E' & H). rewrite (IV _ _ E). cbn [bind]. now rewrite (IA _ _ _ E').
      * cbn [bind] in H |- *. apply bind_ok in H as (r' & E' & H). now rewrite (IA _ _ _ E').
  - intros t t' u H. remember (S n) as n' eqn:En. rewrite En in H. rewrite mul_S in H |- *.
    destruct t as [v|c x|c x|xs ys i e|v x|v x|l x|p q x|l x|p q x]; auto.
    + destruct (is_null A v); auto. destruct (o_eqb O v _); auto. destruct (o_eqb O v _); auto.
    + destruct ((zlen l =? 0) || is_zero A t'); auto.
      assert (Q : bind (if x then sequence (map (inv A n) l) else Ok l) (fun l => Ok (Product (l ++ [t']) false)) = Ok u ->
                  bind (if x then sequence (map (inv A n') l) else Ok l) (fun l => Ok (Product (l ++ [t']) false)) = Ok u).
      { clear H. intros H. destruct x; auto. apply bind_ok in H as (r & E & H). now rewrite (SEQ _ _ E). }
      destruct t' as [w|d y|d y|xs' ys' i' e'|w y|w y|l' y|p' q' y|l' y|p' q' y]; auto. destruct (Bool.eqb x y); auto.
      apply bind_ok in H as (r & E & H). now rewrite (SEQ _ _ E).
Qed.

Lemma stable_le (F : nat -> result term) : (forall n u, F n = Ok u -> F (S n) = Ok u) -> forall n m u, (n <= m)%nat -> F n = Ok u -> F m = Ok u.
Proof. intros H n m u L E. induction L; auto. Qed.

Lemma returns_ok r w : returns r w -> exists u, r = Ok u.
Proof. intros (u & H & _). eauto. Qed.

Lemma invert_transform_stable t : exists u, invert_transform A t = Ok u /\ forall n, (weight t < n)%nat -> inv A n t = Ok u.
Proof.
  unfold invert_transform. destruct (operators_return (S (weight t))) as (H & _). destruct (H t ltac:(lia)) as (u & E & _). exists u. split; auto.
  intros n L. apply (stable_le (fun n => inv A n t)) with (S (weight t)); auto. intros m v. apply operators_stable.
Qed.

Lemma negate_stable t : exists u, negate A t = Ok u /\ forall n, (weight t < n)%nat -> neg A n t = Ok u.
Proof.
  unfold negate. destruct (operators_return (S (weight t))) as (_ & H & _). destruct (H t ltac:(lia)) as (u & E & _). exists u. split; auto.
  intros n L. apply (stable_le (fun n => neg A n t)) with (S (weight t)); auto. intros m v. apply operators_stable.
Qed.

Lemma plus_stable t t' : exists u, plus A t t' = Ok u /\ forall n, (weight t + weight t' < n)%nat -> add A n t t' = Ok u.
Proof.
  unfold plus. destruct (operators_return (S (weight t + weight t'))) as (_ & _ & H & _). destruct (H t t' ltac:(lia)) as (u & E & _). exists u. split; auto.
  intros n L. apply (stable_le (fun n => add A n t t')) with (S (weight t + weight t')); auto. intros m v. apply operators_stable.
Qed.

Lemma times_stable t t' : exists u, times A t t' = Ok u /\ forall n, (weight t + weight t' < n)%nat -> mul A n t t' = Ok u.
Proof.
  unfold times. destruct (operators_return (S (weight t + weight t'))) as (_ & _ & _ & H). destruct (H t t' ltac:(lia)) as (u & E & _). exists u. split; auto.
  intros n L. apply (stable_le (fun n => mul A n t t')) with (S (weight t + weight t')); auto. intros m v. apply operators_stable.
Qed.

Lemma minus_stable t t' : exists u, minus A t t' = Ok u /\ forall n, (weight t + weight t' < n)%nat -> sub A n t t' = Ok u.
Proof.
  assert (Q : forall n, (weight t + weight t' < n)%nat -> exists u, sub A n t t' = Ok u).
  { intros n L. destruct (operators_return n) as (IV & IN & IA & _). pose proof (weight_pos t). pose proof (weight_pos t').
    destruct t as [v|c x|c x|xs ys i e|v x|v x|l x|p q x|l x|p q x]; cbn [sub]; eauto; cbn [weight] in L.
    - destruct (is_null A v); [apply (returns_ok _ (4 + weight t')), IN; lia|]. destruct t'; eauto.
    - destruct t' as [w|d y|d y|xs' ys' i' e'|w y|w y|l' y|p' q' y|l' y|p' q' y]; eauto.
      + destruct (zlen c =? 0); eauto. apply (returns_ok _ (4 + weight (Constant w : term))), IN; lia.
      + destruct (Bool.eqb x y); eauto.
    - destruct (same_bands A _ t') as [((((?, ?), ?), ?), ?)|]; eauto.
    - assert (R : exists u, (if x then inv A n t' else Ok t') = Ok u /\ (weight u <= weight t')%nat).
      { destruct x; [|eauto]. apply IV. lia. }
      destruct R as (u & -> & W). cbn. destruct (IA q u) as (u' & -> & W'); [lia|]. cbn. eauto. }
  unfold minus. destruct (Q (S (weight t + weight t')) ltac:(lia)) as (u & E). exists u. split; auto.
  intros n L. apply (stable_le (fun n => sub A n t t')) with (S (weight t + weight t')); auto. clear. intros n u H.
  destruct (operators_stable n) as (IV & IN & IA & _).
  destruct t as [v|c x|c x|xs ys i e|v x|v x|l x|p q x|l x|p q x]; cbn [sub] in *; auto.
  - destruct (is_null A v); auto.
  - destruct t'; auto. destruct (zlen c =? 0); auto.
  - destruct x.
    + apply bind_ok in H as (r & E & H). apply bind_ok in H as (r' & E' & H). rewrite (IV _ _ E). cbn [bind]. now rewrite (IA _ _ _ E').
    + cbn [bind] in H |- *. apply bind_ok in H as (r' & E' & H). now rewrite (IA _ _ _ E').
Qed.

End Fuel.
