(** Proofs about terms: evaluation, comparison, operators and factories. *)

From Coq Require Import ZArith List Bool Lia ZifyBool Field.
From Verif.Model Require Import Py Signal Terms.
From Verif.Spec Require Import TermsSpec.
From Verif.Proofs Require Import PyFacts.
Import ListNotations.
Open Scope Z_scope.

(** ** Induction on terms *)

Section Induction.
Context {K X : Type}.
Variable P : term K X -> Prop.
Hypothesis HC : forall v, P (Constant v).
Hypothesis HP : forall c x, P (Polynomial c x).
Hypothesis HE : forall c x, P (Exp c x).
Hypothesis HB : forall xs ys i e, P (Bands xs ys i e).
Hypothesis HA : forall v x, P v -> P (Absolute v x).
Hypothesis HN : forall v x, P v -> P (Negative v x).
Hypothesis HS : forall l x, Forall P l -> P (Sum l x).
Hypothesis HD : forall a b x, P a -> P b -> P (Difference a b x).
Hypothesis HM : forall l x, Forall P l -> P (Product l x).
Hypothesis HQ : forall a b x, P a -> P b -> P (Quotient a b x).

Fixpoint term_induction (t : term K X) : P t :=
  let all := fix all (l : list (term K X)) : Forall P l :=
    match l with [] => Forall_nil _ | t :: l => Forall_cons _ (term_induction t) (all l) end in
  match t with
  | Constant v => HC v
  | Polynomial c x => HP c x
  | Exp c x => HE c x
  | Bands xs ys i e => HB xs ys i e
  | Absolute v x => HA v x (term_induction v)
  | Negative v x => HN v x (term_induction v)
  | Sum l x => HS l x (all l)
  | Difference a b x => HD a b x (term_induction a) (term_induction b)
  | Product l x => HM l x (all l)
  | Quotient a b x => HQ a b x (term_induction a) (term_induction b)
  end.
End Induction.

Section Facts.
Context {K X : Type}.
Variable A : arithmetic K X.
Hypothesis EA : exact_arithmetic A.
Notation O := (k_ops A).
Notation term := (term K X).
Notation "0k" := (o_zero O).
Notation "1k" := (o_one O).
Infix "[+]" := (o_add O) (at level 50, left associativity).
Infix "[-]" := (o_sub O) (at level 50, left associativity).
Infix "[*]" := (o_mul O) (at level 40, left associativity).
Infix "[/]" := (o_div O) (at level 40, left associativity).
Notation "[-1]" := (o_neg O).
Notation value := (value A).

Add Field K_field : (exact_field A EA).

Lemma eqb_eq x y : o_eqb O x y = true <-> x = y.
Proof. apply EA. Qed.

Lemma is_null_eq x : is_null A x = true <-> x = 0k.
Proof. apply eqb_eq. Qed.

Lemma is_null_neq x : is_null A x = false <-> x <> 0k.
Proof. rewrite <- is_null_eq. now destruct (is_null A x). Qed.

Lemma one_neq_zero : 1k <> 0k.
Proof. apply (F_1_neq_0 (exact_field A EA)). Qed.

Lemma inverse_inverse s : s <> 0k -> inverse A (inverse A s) = s.
Proof. intros S. unfold inverse. field. split; auto using one_neq_zero. Qed.

Lemma inverse_neq s : s <> 0k -> inverse A s <> 0k.
Proof.
  intros S H. apply one_neq_zero. assert (E : 1k = inverse A s [*] s) by (unfold inverse; field; auto). rewrite E, H. ring.
Qed.

(** ** Evaluation *)

Definition var (x : bool) (s : K) : K := if x then inverse A s else s.

Lemma var_neq x s : s <> 0k -> var x s <> 0k.
Proof. destruct x; cbn; auto using inverse_neq. Qed.

Lemma polyval_go c : forall s y, fold_left (fun y pv => y [*] s [+] pv) c y = y [*] power A s (List.length c) [+] polynomial A c s.
Proof.
  induction c as [|a c IH]; intros s y; cbn [fold_left polynomial List.length power].
  - ring.
  - rewrite IH. ring.
Qed.

Lemma polyval_ok c s : polyval A c s = polynomial A c s.
Proof. unfold polyval. rewrite polyval_go. ring. Qed.

Lemma fold_values (op : K -> K -> K) (u : K) (val : term -> option K) :
  (forall x y z, op x (op y z) = op (op x y) z) -> (forall x, op x u = x) ->
  forall l r, fold_left (fun acc a => lift2 op acc (val a)) l r = lift2 op r (fold_right (fun t r => lift2 op (val t) r) (Some u) l).
Proof.
  intros As U. induction l as [|a l IH]; intros r; cbn [fold_left fold_right].
  - destruct r; cbn; auto. now rewrite U.
  - rewrite IH. destruct r as [r|]; cbn; [|reflexivity]. destruct (val a) as [x|]; cbn; [|reflexivity].
    destruct (fold_right _ _ l); cbn; auto. now rewrite As.
Qed.

(** At a frequency that is not 0, nothing is noted as invalid. *)
Lemma call_value junk f : s_of A f <> 0k -> forall t x,
  call A junk f t x false = (value f (var x (s_of A f)) t, false).
Proof.
  intros S. assert (G : forall x, get_s A junk f x false = (var x (s_of A f), false)).
  { intros x. unfold get_s. apply is_null_neq in S. rewrite S. destruct x; reflexivity. }
  assert (V : forall x y : bool, (if y then inverse A (var x (s_of A f)) else var x (s_of A f)) = var (xorb x y) (s_of A f)).
  { intros [] []; cbn; auto. now apply inverse_inverse. }
  intros t. induction t as [v|c x|c x|xs ys i e|v x IHt|v x IHt|l x H|t1 t2 x IHt1 IHt2|l x H|t1 t2 x IHt1 IHt2] using term_induction; intros y; cbn [call TermsSpec.value transform]; rewrite ?V.
  - rewrite G. reflexivity.
  - rewrite G, polyval_ok. reflexivity.
  - rewrite G. reflexivity.
  - reflexivity.
  - rewrite IHt. reflexivity.
  - rewrite IHt. reflexivity.
  - destruct l as [|first rest]; [rewrite G; reflexivity|]. inversion_clear H as [|? ? H0 H1]. rewrite H0.
    assert (E : forall r, fold_left (fun acc a => let '(r, invalid) := acc in
        let '(z, invalid) := call A junk f a (xorb y x) invalid in (binary (o_add O) r z, invalid)) rest (r, false) =
        (fold_left (fun acc a => lift2 (o_add O) acc (value f (var (xorb y x) (s_of A f)) a)) rest r, false)).
    { clear H0. induction H1 as [|a l Ha Hl IH]; intros r; cbn [fold_left]; [reflexivity|]. rewrite Ha. apply IH. }
    rewrite E, (fold_values (o_add O) 0k); [reflexivity|intros; ring|intros; ring].
  - rewrite IHt1, IHt2. reflexivity.
  - destruct l as [|first rest]; [rewrite G; reflexivity|]. inversion_clear H as [|? ? H0 H1]. rewrite H0.
    assert (E : forall r, fold_left (fun acc a => let '(r, invalid) := acc in
        let '(z, invalid) := call A junk f a (xorb y x) invalid in (binary (o_mul O) r z, invalid)) rest (r, false) =
        (fold_left (fun acc a => lift2 (o_mul O) acc (value f (var (xorb y x) (s_of A f)) a)) rest r, false)).
    { clear H0. induction H1 as [|a l Ha Hl IH]; intros r; cbn [fold_left]; [reflexivity|]. rewrite Ha. apply IH. }
    rewrite E, (fold_values (o_mul O) 1k); [reflexivity|intros; ring|intros; ring].
  - rewrite IHt1, IHt2. reflexivity.
Qed.

(** ** Sums, products, bands *)

Lemma every_list (P : term -> Prop) l : fold_right (fun t Q => every P t /\ Q) True l <-> Forall (every P) l.
Proof. induction l; cbn; split; intros H; try constructor; try inversion_clear H; tauto. Qed.

Section AtFrequency.
Variable f : X.

Definition vsum (s : K) (l : list term) := fold_right (fun t r => lift2 (o_add O) (value f s t) r) (Some 0k) l.
Definition vprod (s : K) (l : list term) := fold_right (fun t r => lift2 (o_mul O) (value f s t) r) (Some 1k) l.

Lemma value_sum s l (x : bool) : value f s (Sum l x) = vsum (if x then inverse A s else s) l.
Proof. reflexivity. Qed.

Lemma vsum_cons s t l : vsum s (t :: l) = lift2 (o_add O) (value f s t) (vsum s l).
Proof. reflexivity. Qed.

Lemma vprod_cons s t l : vprod s (t :: l) = lift2 (o_mul O) (value f s t) (vprod s l).
Proof. reflexivity. Qed.

Lemma value_product s l (x : bool) : l <> [] -> value f s (Product l x) = vprod (if x then inverse A s else s) l.
Proof. destruct l; [easy|reflexivity]. Qed.

Lemma lift2_some op (x y : option K) a : lift2 op x y = Some a -> exists b c, x = Some b /\ y = Some c /\ a = op b c.
Proof. destruct x as [b|], y as [c|]; try discriminate. intros H. injection H as <-. eauto. Qed.

Lemma lift_some op (x : option K) a : lift op x = Some a -> exists b, x = Some b /\ a = op b.
Proof. destruct x as [b|]; try discriminate. intros H. injection H as <-. eauto. Qed.

Lemma quotient_some (x y : option K) a : quotient A x y = Some a -> exists b c, x = Some b /\ y = Some c /\ c <> 0k /\ a = b [/] c.
Proof.
  destruct x as [b|], y as [c|]; try discriminate. cbn. destruct (o_eqb O c 0k) eqn:E; try discriminate.
  intros H. injection H as <-. exists b, c. repeat split; auto. intros ->. rewrite (proj2 (eqb_eq _ _) eq_refl) in E. discriminate.
Qed.

Lemma quotient_ok b c : c <> 0k -> quotient A (Some b) (Some c) = Some (b [/] c).
Proof. intros H. cbn. destruct (o_eqb O c 0k) eqn:E; auto. apply eqb_eq in E. easy. Qed.

Lemma vsum_app s l m a b : vsum s l = Some a -> vsum s m = Some b -> vsum s (l ++ m) = Some (a [+] b).
Proof.
  revert a. induction l as [|t l IH]; intros a H M; cbn [app].
  - injection H as <-. rewrite M. f_equal. ring.
  - rewrite vsum_cons in *. apply lift2_some in H as (x & y & X1 & Y & ->). rewrite X1, (IH y Y M). cbn. f_equal. ring.
Qed.

Lemma vprod_app s l m a b : vprod s l = Some a -> vprod s m = Some b -> vprod s (l ++ m) = Some (a [*] b).
Proof.
  revert a. induction l as [|t l IH]; intros a H M; cbn [app].
  - injection H as <-. rewrite M. f_equal. ring.
  - rewrite vprod_cons in *. apply lift2_some in H as (x & y & X1 & Y & ->). rewrite X1, (IH y Y M). cbn. f_equal. ring.
Qed.

Lemma vsum_one s t a : value f s t = Some a -> vsum s [t] = Some a.
Proof. intros H. cbn. rewrite H. cbn. f_equal. ring. Qed.

Lemma vprod_one s t a : value f s t = Some a -> vprod s [t] = Some a.
Proof. intros H. cbn. rewrite H. cbn. f_equal. ring. Qed.

Lemma vsum_two s t u a b : value f s t = Some a -> value f s u = Some b -> vsum s [t; u] = Some (a [+] b).
Proof. intros H I. apply (vsum_app s [t] [u]); now apply vsum_one. Qed.

Lemma vprod_two s t u a b : value f s t = Some a -> value f s u = Some b -> vprod s [t; u] = Some (a [*] b).
Proof. intros H I. apply (vprod_app s [t] [u]); now apply vprod_one. Qed.

Lemma bands_cases xs i e : xs <> [] -> pointwise i -> pointwise e ->
  (forall ys, zlen ys = zlen xs -> bands_at A f xs ys i e = Some 0k) \/
  (exists k, 0 <= k < zlen xs /\ forall ys, zlen ys = zlen xs -> bands_at A f xs ys i e = zth ys k).
Proof.
  intros N I E. unfold bands_at. destruct xs as [|x0 t]; [easy|].
  destruct (x_ltb A f x0 || x_ltb A (last (x0 :: t) x0) f); now apply EA.
Qed.

Lemma polynomial_zero c s : forallb (is_null A) c = true -> polynomial A c s = 0k.
Proof.
  induction c as [|a c IH]; cbn; auto. intros H. apply andb_prop in H as [H1 H2]. apply is_null_eq in H1 as ->. rewrite IH; auto. ring.
Qed.

Lemma arrays_differ_false {Y} (eqb : Y -> Y -> bool) (R : forall x y, eqb x y = true <-> x = y) a b :
  zlen a = zlen b -> arrays_differ eqb a b = false -> a = b.
Proof.
  intros L. unfold arrays_differ. rewrite (proj2 (Z.eqb_eq _ _) L). revert b L. induction a as [|x a IH]; intros [|y b] L; auto; try (cbn in L; unfold zlen in L; cbn in L; lia).
  cbn. intros H. apply orb_false_elim in H as [H1 H2]. f_equal.
  - apply R. now destruct (eqb x y).
  - apply IH; auto. rewrite !zlen_cons in L. lia.
Qed.

Lemma arrays_same_length {Y} (eqb : Y -> Y -> bool) (R : forall x y, eqb x y = true <-> x = y) a b :
  a <> [] -> b <> [] -> NoDup a -> NoDup b -> arrays_differ eqb a b = false -> zlen a = zlen b.
Proof.
  assert (S : forall x (l : list Y), NoDup l -> l <> [] -> (forall y, In y l -> y = x) -> zlen l = 1).
  { intros x [|y [|z l]] N E I; try easy. exfalso. inversion_clear N. apply H. left. rewrite (I y), (I z); auto; cbn; auto. }
  intros A0 B0 NA NB. unfold arrays_differ. destruct (zlen a =? zlen b) eqn:E; [lia|].
  assert (T : forall x l, existsb (fun y => negb (eqb x y)) l = false -> forall y, In y l -> y = x).
  { intros x l H y I. destruct (eqb x y) eqn:F; [symmetry; now apply R|]. exfalso.
    enough (existsb (fun y => negb (eqb x y)) l = true) by congruence. apply existsb_exists. exists y. now rewrite F. }
  assert (T' : forall x l, existsb (fun y => negb (eqb y x)) l = false -> forall y, In y l -> y = x).
  { intros x l H y I. destruct (eqb y x) eqn:F; [now apply R|]. exfalso.
    enough (existsb (fun y => negb (eqb y x)) l = true) by congruence. apply existsb_exists. exists y. now rewrite F. }
  destruct a as [|x [|x' a]]; try easy.
  - intros H. rewrite (S x b); auto. now apply T.
  - destruct b as [|y [|y' b]]; try easy. intros H. rewrite (S y (x :: x' :: a)); auto. now apply T'.
Qed.

Lemma zth_zero (ys : list K) k y : forallb (is_null A) ys = true -> zth ys k = Some y -> y = 0k.
Proof. intros H Z. apply zth_In in Z. rewrite forallb_forall in H. now apply is_null_eq, H. Qed.

Lemma proper_of (P : term -> Prop) : (forall t, P t -> proper t) -> forall t, every P t -> every (proper (K:=K) (X:=X)) t.
Proof.
  intros I t. induction t as [v|c x|c x|xs ys i e|v x IHt|v x IHt|l x H|t1 t2 x IHt1 IHt2|l x H|t1 t2 x IHt1 IHt2] using term_induction;
    cbn [every]; intros [H0 H1]; split; auto; try (destruct H1; split; now auto).
  - apply every_list. apply every_list in H1. rewrite Forall_forall in *. auto.
  - apply every_list. apply every_list in H1. rewrite Forall_forall in *. auto.
Qed.

(** ** [is_zero] and [==] *)

Lemma comparison_sound n :
  (forall t s a, every (proper (K:=K) (X:=X)) t -> is_zero_n A n t = true -> value f s t = Some a -> a = 0k) /\
  (forall t u s a b, every (proper (K:=K) (X:=X)) t -> every (proper (K:=K) (X:=X)) u -> equal_n A n t u = true -> value f s t = Some a -> value f s u = Some b -> a = b).
Proof.
  induction n as [|n [IZ IE]]; [split; discriminate|]. split.
  - intros t s a W Z V. destruct t as [v|c x|c x|xs ys i e|v x|v x|l x|m u x|l x|m u x]; cbn [is_zero_n TermsSpec.value transform every] in *; destruct W as [P W].
    + injection V as <-. now apply is_null_eq.
    + injection V as <-. now apply polynomial_zero.
    + discriminate.
    + destruct P as (NE & ND & L & PI & PE). apply orb_prop in Z as [Z|Z]; [destruct xs; [easy|rewrite zlen_cons in Z; pose proof (zlen_nonneg xs); lia]|].
      destruct (bands_cases xs i e NE PI PE) as [B|(k & K0 & B)]; rewrite B in V; auto; [now injection V|]. eapply zth_zero; eauto.
    + apply lift_some in V as (b & V & ->). rewrite (IZ v _ b W Z V). apply (exact_abs_zero A EA).
    + apply lift_some in V as (b & V & ->). rewrite (IZ v _ b W Z V). ring.
    + apply every_list in W. revert V. generalize (if x then inverse A s else s). intros r. revert a.
      induction l as [|t l IH]; cbn in Z |- *; intros a V; [now injection V|].
      apply andb_prop in Z as [Z1 Z2]. apply lift2_some in V as (b & c & V1 & V2 & ->). inversion_clear W.
      rewrite (IZ t _ b H Z1 V1), (IH I H0 Z2 c V2). ring.
    + destruct W as [W1 W2]. apply lift2_some in V as (b & c & V1 & V2 & ->). apply orb_prop in Z as [Z|Z].
      * rewrite (IE m u _ b c W1 W2 Z V1 V2). ring.
      * apply andb_prop in Z as [Z1 Z2]. rewrite (IZ m _ b W1 Z1 V1), (IZ u _ c W2 Z2 V2). ring.
    + destruct l as [|t0 l0] eqn:El; [now injection V|]. rewrite <- El in *. clear El t0 l0.
      apply every_list in W. revert V. generalize (if x then inverse A s else s). intros r. revert a. change (forall a, vprod r l = Some a -> a = 0k).
      assert (Z' : existsb (is_zero_n A n) l = true) by (destruct l; auto). clear Z P.
      induction l as [|t l IH]; cbn in Z' |- *; intros a V; [discriminate|].
      apply lift2_some in V as (b & c & V1 & V2 & ->). inversion_clear W. apply orb_prop in Z' as [Z1|Z2].
      * rewrite (IZ t _ b H Z1 V1). ring.
      * rewrite (IH H0 Z2 c V2). ring.
    + destruct W as [W1 W2]. apply quotient_some in V as (b & c & V1 & V2 & N & ->). rewrite (IZ m _ b W1 Z V1). field. auto.
  - assert (C0 : forall v u s b, every (proper (K:=K) (X:=X)) u -> is_null A v && is_zero_n A n u = true -> value f s u = Some b -> v = b).
    { intros v u s b W H V. apply andb_prop in H as [H1 H2]. apply is_null_eq in H1 as ->. symmetry. eapply IZ; eauto. }
    intros t u s a b W W' E V V'.
    destruct t as [v|c x|c x|xs ys i e|v x|v x|l x|m m' x|l x|m m' x].
    { destruct u as [w|d y|d y|xs' ys' i' e'|w y|w y|l' y|p q y|l' y|p q y]; [|injection V as <-; eapply C0; eassumption..].
      injection V as <-. injection V' as <-. cbn in E. apply orb_prop in E as [E|E]; [|now apply eqb_eq].
      apply andb_prop in E as [E1 E2]. apply is_null_eq in E1. apply is_null_eq in E2. congruence. }
    all: destruct u as [w|d y|d y|xs' ys' i' e'|w y|w y|l' y|p q y|l' y|p q y]; try discriminate E; cbn [equal_n] in E; destruct W as [P W], W' as [P' W'];
      rewrite ?andb_true_iff in E.
    + destruct E as [[E1 E2] E3]. apply eqb_prop in E3 as ->. apply Z.eqb_eq in E1. apply negb_true_iff in E2.
      rewrite (arrays_differ_false _ eqb_eq _ _ E1 E2) in V. congruence.
    + destruct E as [E1 E3]. apply eqb_prop in E3 as ->. apply eqb_eq in E1 as ->. congruence.
    + destruct E as [[[E1 E2] E3] E4]. apply negb_true_iff in E3. apply negb_true_iff in E4.
      destruct P as (NE & ND & L & PI & PE), P' as (NE' & ND' & L' & PI' & PE').
      pose proof (arrays_same_length _ (exact_x_eqb A EA) _ _ NE NE' ND ND' E3) as EL.
      pose proof (arrays_differ_false _ (exact_x_eqb A EA) _ _ EL E3). subst xs'.
      rewrite (arrays_differ_false _ eqb_eq ys ys') in V; auto; try lia.
      assert (i = i') by (destruct i, i'; easy). assert (e = e') by (destruct e, e'; easy). subst. cbn in V, V'. congruence.
    + destruct E as [E1 E3]. apply eqb_prop in E3 as ->. cbn [TermsSpec.value transform] in V, V'.
      apply lift_some in V as (a' & V & ->). apply lift_some in V' as (b' & V' & ->). f_equal. exact (IE v w _ a' b' W W' E1 V V').
    + destruct E as [E1 E3]. apply eqb_prop in E3 as ->. cbn [TermsSpec.value transform] in V, V'.
      apply lift_some in V as (a' & V & ->). apply lift_some in V' as (b' & V' & ->). f_equal. exact (IE v w _ a' b' W W' E1 V V').
    + destruct E as [[E1 E2] E3]. apply eqb_prop in E3 as ->. rewrite value_sum in V, V'. apply every_list in W. apply every_list in W'.
      apply Z.eqb_eq in E1. revert V V'. generalize (if y then inverse A s else s). intros r. clear P P'. revert l' E1 E2 W' a b.
      induction W as [|t l Wt Wl IHl]; intros [|u l'] E1 E2 W' a b V V'; try (exfalso; unfold zlen in E1; cbn [List.length] in E1; lia).
      * cbn in V, V'. congruence.
      * cbn in E2, V, V'. apply andb_prop in E2 as [E2 E3]. inversion_clear W'.
        apply lift2_some in V as (a1 & a2 & V1 & V2 & ->). apply lift2_some in V' as (b1 & b2 & V1' & V2' & ->). f_equal; eauto.
        eapply (IHl l'); eauto. rewrite !zlen_cons in E1. lia.
    + destruct E as [[E1 E2] E3]. apply eqb_prop in E3 as ->. cbn [TermsSpec.value transform] in V, V'. destruct W as [W1 W2], W' as [W1' W2'].
      apply lift2_some in V as (a1 & a2 & V1 & V2 & ->). apply lift2_some in V' as (b1 & b2 & V1' & V2' & ->). f_equal; eauto.
    + destruct E as [[E1 E2] E3]. apply eqb_prop in E3 as ->. apply every_list in W. apply every_list in W'. apply Z.eqb_eq in E1.
      destruct l as [|t0 l0] eqn:El.
      { destruct l' as [|u l']; [cbn in V, V'; congruence|exfalso; unfold zlen in E1; cbn [List.length] in E1; lia]. }
      rewrite value_product in V by easy.
      rewrite value_product in V' by (intros ->; unfold zlen in E1; cbn [List.length] in E1; lia). rewrite <- El in *. clear El t0 l0.
      revert V V'. generalize (if y then inverse A s else s). intros r. clear P P'. revert l' E1 E2 W' a b.
      induction W as [|t l Wt Wl IHl]; intros [|u l'] E1 E2 W' a b V V'; try (exfalso; unfold zlen in E1; cbn [List.length] in E1; lia).
      * cbn in V, V'. congruence.
      * cbn in E2, V, V'. apply andb_prop in E2 as [E2 E3]. inversion_clear W'.
        apply lift2_some in V as (a1 & a2 & V1 & V2 & ->). apply lift2_some in V' as (b1 & b2 & V1' & V2' & ->). f_equal; eauto.
        eapply (IHl l'); eauto. rewrite !zlen_cons in E1. lia.
    + destruct E as [[E1 E2] E3]. apply eqb_prop in E3 as ->. cbn [TermsSpec.value transform] in V, V'. destruct W as [W1 W2], W' as [W1' W2'].
      apply quotient_some in V as (a1 & a2 & V1 & V2 & N & ->). apply quotient_some in V' as (b1 & b2 & V1' & V2' & N' & ->). f_equal; eauto.
Qed.

Lemma is_zero_sound t s a : every (proper (K:=K) (X:=X)) t -> is_zero A t = true -> value f s t = Some a -> a = 0k.
Proof. apply comparison_sound. Qed.

Lemma equal_sound t u s a b : every (proper (K:=K) (X:=X)) t -> every (proper (K:=K) (X:=X)) u ->
  equal A t u = true -> value f s t = Some a -> value f s u = Some b -> a = b.
Proof. apply comparison_sound. Qed.

End AtFrequency.

End Facts.
