(** Products of polynomials as transfer functions, and what the predefined filters have in common. *)

From Coq Require Import String ZArith List Bool Lia ZifyBool Reals Lra Ring_theory Field_theory Ring Field.
From Verif.Model Require Import Py Functions Signal Terms Filter Rolloff.
From Verif.Spec Require Import TermsSpec FilterSpec RealSpec ComplexSpec DftSpec RolloffSpec.
From Verif.Proofs Require Import PyFacts SignalHelpers TermFacts TermOperators TermFuel FilterFacts FilterOperators ComplexFacts DftFacts RootsFacts.
Import ListNotations.
Open Scope Z_scope.
Ltac Zify.zify_post_hook ::= idtac.

Section Rolloff.
Variable power modulo : R -> R -> R.
Variable cpower cmodulo : C -> C -> C.
Variable log2_c exp2_c : C -> C.
Variable junk : C.
Notation T := (complex_arithmetic cpower cmodulo log2_c exp2_c).
Notation M := (real_mathematics power modulo).
Notation EA := (complex_exact cpower cmodulo log2_c exp2_c).
Notation term := (term C R).

Definition variable (highpass : bool) (f : R) : C := if highpass then inverse T (s_of T f) else s_of T f.
Definition kind_of (highpass : bool) : kind := if highpass then NoDifferences else Untransformed.

Lemma s_not_0 f : f <> 0%R -> s_of T f <> C0.
Proof.
  intros H E. injection E as E. apply Rmult_integral in E as [E|E]; [|contradiction]. apply Rmult_integral in E as [E|E]; [lra|]. now apply PI_neq0.
Qed.

Lemma evaluable_defined hp f : evaluable hp f -> defined_at T (kind_of hp) f.
Proof. unfold evaluable. destruct hp; cbn [kind_of defined_at]; auto. intros H. apply s_not_0. auto. Qed.
Lemma allowed_kind hp : allowed (kind_of hp) hp.
Proof. now destruct hp. Qed.

(** The scaled variable *)
Lemma scaled_variable hp fc f k : fc <> 0%R -> evaluable hp f -> frequency_scaling M fc hp = Ok k ->
  Cmul (C_of_R k) (variable hp f) = (0, (if hp then - relative_frequency hp fc f else relative_frequency hp fc f))%R.
Proof.
  intros Hc E H. pose proof PI_neq0 as P. unfold frequency_scaling in H. destruct hp.
  - injection H as <-. specialize (E eq_refl). unfold variable, inverse, relative_frequency. apply C_ext; cbn -[IZR]; unfold norm2; cbn -[IZR]; field; auto.
  - cbn [m_ops o_eqb o_zero real_mathematics real_ops] in H. destruct (Req_EM_T fc 0) as [Q|Q]; [contradiction|]. injection H as <-.
    unfold variable, relative_frequency. apply C_ext; cbn -[IZR]; field; auto.
Qed.

Lemma scaling_ok hp fc : fc <> 0%R -> exists k, frequency_scaling M fc hp = Ok k /\ k <> 0%R.
Proof.
  intros Hc. pose proof PI_neq0 as P. unfold frequency_scaling. destruct hp.
  - eexists. split; [reflexivity|]. cbn. intros E. apply Rmult_integral in E as [E|E]; [|contradiction]. apply Rmult_integral in E as [E|E]; [lra|contradiction].
  - cbn [m_ops o_eqb o_zero real_mathematics real_ops]. destruct (Req_EM_T fc 0) as [Q|Q]; [contradiction|].
    eexists. split; [reflexivity|]. cbn. apply Rmult_integral_contrapositive. split; [lra|]. apply Rinv_neq_0_compat. intros E. apply Rmult_integral in E as [E|E]; [|contradiction]. apply Rmult_integral in E as [E|E]; [lra|contradiction].
Qed.

(** ** Polynomials *)

(** There are at least two coefficients and the leading one is not 0. *)
Definition steep (c : list C) : Prop := match c with a :: _ :: _ => a <> C0 | _ => False end.

Lemma factory_steep c x : steep c -> polynomial_factory T c x = Polynomial c x.
Proof.
  destruct c as [|a [|b c]]; cbn [steep]; try easy. intros H. unfold polynomial_factory. cbn [drop_zeros].
  apply (is_null_neq T EA) in H. rewrite H. reflexivity.
Qed.
Lemma steep_zero c x : steep c -> is_zero T (Polynomial c x) = false.
Proof.
  destruct c as [|a [|b c]]; cbn [steep]; try easy. intros H. apply (is_null_neq T EA) in H. cbn. unfold is_null in *. cbn in H. now rewrite H.
Qed.
Lemma steep_not_nil c : steep c -> c <> [].
Proof. destruct c; easy. Qed.

Notation lowpass := (map (fun c => Polynomial c false : term)).

Lemma no_zero cs : Forall steep cs -> existsb (is_zero T) (lowpass cs) = false.
Proof. induction 1 as [|c cs H _ IH]; [reflexivity|]. cbn [map existsb]. now rewrite steep_zero, IH. Qed.

(** The product of polynomials *)
Definition product_of (cs : list (list C)) (hp : bool) : term :=
  match cs with
  | [c] => Polynomial c hp
  | [c; d] => Product [Polynomial c hp; Polynomial d hp] false
  | cs => Product (lowpass cs) hp
  end.

Lemma product_shape cs hp : cs <> [] -> Forall steep cs -> product_factory T (lowpass cs) hp = Ok (product_of cs hp).
Proof.
  intros N H. pose proof (no_zero cs H) as Z. unfold product_factory, product_factory_. rewrite zlen_map, Z.
  destruct cs as [|c [|d [|e cs]]]; [easy| | |].
  - inversion_clear H as [|? ? Hc _]. cbn [map product_of zlen]. change (zlen [c] =? 0) with false. cbn [orb]. destruct hp; [|reflexivity].
    cbn [invert_transform weight inv negb]. now rewrite factory_steep.
  - inversion_clear H as [|? ? Hc Hd']. inversion_clear Hd' as [|? ? Hd _]. cbn [map product_of]. change (zlen [c; d] =? 0) with false. cbn [orb]. destruct hp.
    + cbn [invert_transform weight inv negb bind]. rewrite !factory_steep by auto. reflexivity.
    + reflexivity.
  - cbn [map product_of]. replace (zlen (c :: d :: e :: cs) =? 0) with false; [reflexivity|]. rewrite zlen_cons. pose proof (zlen_nonneg (d :: e :: cs)). lia.
Qed.

Lemma invert_product cs hp : cs <> [] -> invert T (product_of cs hp) = Ok (Quotient (Constant C1) (product_of cs hp) false).
Proof. destruct cs as [|c [|d [|e cs]]]; easy. Qed.

Lemma vprod_values f s (l : list term) g : (forall t, In t l -> value T f s t = Some (g t)) -> vprod T f s l = Some (Cprod l g).
Proof.
  induction l as [|t l IH]; intros H; [reflexivity|]. rewrite vprod_cons, IH by (intros; apply H; now right). now rewrite H by now left.
Qed.

Lemma vprod_lowpass f s cs : vprod T f s (lowpass cs) = Some (Cprod cs (fun c => polynomial T c s)).
Proof. induction cs as [|c cs IH]; [reflexivity|]. cbn [map]. rewrite vprod_cons, IH. reflexivity. Qed.

Lemma product_of_value cs hp f : cs <> [] -> value T f (s_of T f) (product_of cs hp) = Some (Cprod cs (fun c => polynomial T c (variable hp f))).
Proof.
  intros N. destruct cs as [|c [|d [|e cs]]]; [easy| | |].
  - cbn [product_of TermsSpec.value transform]. rewrite Cprod_cons, Cprod_nil. f_equal. fold (variable hp f). ring.
  - cbn [product_of TermsSpec.value transform fold_right lift2]. fold (variable hp f). rewrite !Cprod_cons, Cprod_nil. reflexivity.
  - cbn [product_of]. rewrite value_product by easy. fold (variable hp f). apply vprod_lowpass.
Qed.

Lemma product_of_regular cs hp : cs <> [] -> Forall steep cs -> regular (kind_of hp) (product_of cs hp).
Proof.
  intros N H. assert (P : forall c x, allowed (kind_of hp) x -> steep c -> regular (kind_of hp) (Polynomial c x : term)).
  { intros c x Q S. apply regular_good, good_polynomial_okay; [now apply allowed_okay|now apply steep_not_nil]. }
  assert (F : allowed (kind_of hp) false) by (now destruct hp).
  destruct cs as [|c [|d [|e cs]]]; [easy| | |].
  - inversion_clear H. cbn [product_of]. apply P; auto using allowed_kind.
  - inversion_clear H as [|? ? Hc Hd']. inversion_clear Hd' as [|? ? Hd _]. cbn [product_of]. apply product_regular; auto. repeat constructor; apply P; auto using allowed_kind.
  - cbn [product_of]. apply product_regular; auto using allowed_kind. apply Forall_forall. intros t I. apply in_map_iff in I as (y & <- & I). rewrite Forall_forall in H. auto.
Qed.

(** ** 0 Hz *)

Lemma s_0 : is_null T (s_of T 0%R) = true.
Proof. apply (is_null_eq T EA). apply C_ext; cbn; ring. Qed.

Lemma polynomial_at_0 c hp x i : xorb x hp = true -> call T junk 0%R (Polynomial c hp) x i = (Some C0, true).
Proof. intros H. cbn [call transform]. unfold get_s. rewrite H, s_0. reflexivity. Qed.

Lemma product_of_at_0 cs : cs <> [] -> snd (call T junk 0%R (product_of cs true) false false) = true.
Proof.
  intros N. assert (L : forall cs r, snd (fold_left (fun acc a => let '(r, invalid) := acc in
      let '(z, invalid) := call T junk 0%R a true invalid in (binary (o_mul (k_ops T)) r z, invalid)) (lowpass cs) (r, true)) = true).
  { clear. induction cs as [|c cs IH]; intros r; [reflexivity|]. cbn [map fold_left]. rewrite polynomial_at_0 by reflexivity. apply IH. }
  destruct cs as [|c [|d [|e cs]]]; [easy| | |].
  - cbn [product_of]. now rewrite polynomial_at_0.
  - cbn [product_of]. change (call T junk 0%R (Product [Polynomial c true; Polynomial d true] false) false false) with
      (let '(r, invalid) := (let '(r, invalid) := call T junk 0%R (Polynomial c true) false false in
                             let '(z, invalid) := call T junk 0%R (Polynomial d true) false invalid in (binary (o_mul (k_ops T)) r z, invalid)) in
       (fix_sample T invalid r, invalid)).
    rewrite !polynomial_at_0 by reflexivity. reflexivity.
  - cbn [product_of]. change (call T junk 0%R (Product (lowpass (c :: d :: e :: cs)) true) false false) with
      (let '(r, invalid) := fold_left (fun acc a => let '(r, invalid) := acc in
         let '(z, invalid) := call T junk 0%R a true invalid in (binary (o_mul (k_ops T)) r z, invalid)) (lowpass (d :: e :: cs)) (call T junk 0%R (Polynomial c false) true false) in
       (fix_sample T invalid r, invalid)).
    rewrite polynomial_at_0 by reflexivity. pose proof (L (d :: e :: cs) (Some C0)) as Q. destruct (fold_left _ _ _) as [r i]. exact Q.
Qed.

Lemma quotient_at_0 a b : snd (call T junk 0%R b false false) = true -> evaluate T junk (Quotient (Constant a) b false) 0%R = Some C0.
Proof.
  intros H. unfold evaluate. cbn [call transform xorb get_s]. destruct (call T junk 0%R b false false) as [r i]. cbn in H. subst i. reflexivity.
Qed.

(** ** The inverse of a product *)

Lemma inverse_product cs hp label : cs <> [] -> Forall steep cs ->
  exists F, (t <- (p <- product_factory T (lowpass cs) hp ;; invert T p) ;; Ok (rolloff_filter t label)) = Ok F /\
    f_count F = 1 /\ f_labels F = [label] /\
    (forall f, evaluable hp f -> Cprod cs (fun c => polynomial T c (variable hp f)) <> C0 ->
      response T junk F 0 f = Some (Cinv (Cprod cs (fun c => polynomial T c (variable hp f))))) /\
    (hp = true -> response T junk F 0 0%R = Some C0).
Proof.
  intros N H. rewrite product_shape by auto. cbn [bind]. rewrite invert_product by auto. cbn [bind]. eexists. split; [reflexivity|].
  split; [reflexivity|]. split; [reflexivity|]. split.
  - intros f E NZ. rewrite (response_value T EA junk (kind_of hp)).
    + change (zth (transfer_functions (rolloff_filter (Quotient (Constant C1) (product_of cs hp) false) label)) 0) with (Some (Quotient (Constant C1) (product_of cs hp) false)).
      cbn [TermsSpec.value transform]. rewrite product_of_value by auto. cbn [quotient].
      replace (o_eqb (k_ops T) _ _) with false by (symmetry; now apply (is_null_neq T EA)). f_equal. cbn [k_ops complex_arithmetic complex_ops o_div]. unfold Cdiv. ring.
    + constructor; [|constructor]. apply regular_plain. apply regular_good, good_quotient_okay; [apply allowed_okay; now destruct hp|apply good_constant|].
      apply regular_good. now apply product_of_regular.
    + now apply evaluable_defined.
  - intros ->. pose proof (quotient_at_0 C1 (product_of cs true) (product_of_at_0 cs N)) as Q. unfold evaluate in Q. unfold response, filter_call, rolloff_filter.
    cbn [transfer_functions mk_filter call_channels]. destruct (call T junk 0%R (Quotient (Constant C1) (product_of cs true) false) false false) as [r i]. exact Q.
Qed.

(** Quadratic and linear factors *)
Lemma quadratic_value a b y k s : Cmul (C_of_R k) s = (0, y)%R ->
  polynomial T [C_of_R (a * (k * k)); C_of_R (b * k); C_of_R 1] s = (1 - a * y * y, b * y)%R.
Proof.
  intros H. cbn [polynomial TermsSpec.power List.length complex_arithmetic complex_ops k_ops o_add o_mul o_zero o_one].
  transitivity (Cadd (Cmul (C_of_R a) (Cmul (Cmul (C_of_R k) s) (Cmul (C_of_R k) s))) (Cadd (Cmul (C_of_R b) (Cmul (C_of_R k) s)) C1)).
  - apply C_ext; cbn; ring.
  - rewrite H. apply C_ext; cbn; ring.
Qed.
Lemma linear_value b y k s : Cmul (C_of_R k) s = (0, y)%R -> polynomial T [C_of_R (b * k); C_of_R 1] s = (1, b * y)%R.
Proof.
  intros H. cbn [polynomial TermsSpec.power List.length complex_arithmetic complex_ops k_ops o_add o_mul o_zero o_one].
  transitivity (Cadd (Cmul (C_of_R b) (Cmul (C_of_R k) s)) C1).
  - apply C_ext; cbn; ring.
  - rewrite H. apply C_ext; cbn; ring.
Qed.

End Rolloff.
