(** Bessel filters. *)

From Coq Require Import String ZArith List Bool Lia ZifyBool Reals Lra Ring_theory Field_theory Ring Field.
From Verif.Model Require Import Py Functions Signal Terms Filter Rolloff.
From Verif.Spec Require Import TermsSpec FilterSpec RealSpec ComplexSpec DftSpec RolloffSpec.
From Verif.Proofs Require Import PyFacts SignalHelpers TermFacts TermOperators TermFuel FilterFacts FilterOperators ComplexFacts DftFacts RootsFacts RolloffFacts ButterworthFacts.
Import ListNotations.
Open Scope Z_scope.
Ltac Zify.zify_post_hook ::= idtac.

(** ** The coefficients of the Bessel polynomials *)

Fixpoint bessel_numbers (n : nat) : (nat -> Z) * (nat -> Z) :=
  match n with
  | 0%nat => (fun i => match i with 0%nat => 1 | _ => 0 end, fun i => match i with 0%nat | 1%nat => 1 | _ => 0 end)
  | S m => let '(p, q) := bessel_numbers m in
           (q, fun i => (2 * Z.of_nat n + 1) * q i + match i with S (S k) => p k | _ => 0 end)
  end.
Definition number (n i : nat) : Z := fst (bessel_numbers n) i.

Lemma number_0 i : number 0 i = match i with 0%nat => 1 | _ => 0 end.
Proof. reflexivity. Qed.
Lemma number_1 i : number 1 i = match i with 0%nat | 1%nat => 1 | _ => 0 end.
Proof. reflexivity. Qed.
Lemma number_S n i : number (S (S n)) i = (2 * Z.of_nat n + 3) * number (S n) i + match i with S (S k) => number n k | _ => 0 end.
Proof.
  unfold number. cbn [bessel_numbers]. destruct (bessel_numbers n) as [p q]. cbn [fst]. f_equal. f_equal. lia.
Qed.

Lemma two_steps (P : nat -> Prop) : P 0%nat -> P 1%nat -> (forall n, P n -> P (S n) -> P (S (S n))) -> forall n, P n.
Proof. intros H0 H1 H n. enough (P n /\ P (S n)) by tauto. induction n; [auto|]. destruct IHn. auto. Qed.

Lemma number_high n : forall i, (n < i)%nat -> number n i = 0.
Proof.
  induction n using two_steps; intros i Hi.
  - rewrite number_0. destruct i; [lia|reflexivity].
  - rewrite number_1. destruct i as [|[|i]]; try lia; reflexivity.
  - rewrite number_S, IHn0 by lia. destruct i as [|[|i]]; try lia. rewrite IHn by lia. lia.
Qed.

Lemma number_lead n : number n n = 1.
Proof.
  induction n using two_steps; [reflexivity|reflexivity|]. rewrite number_S, number_high, IHn by lia. lia.
Qed.

Lemma fact_S n : factorial_nat (S n) = (Z.of_nat n + 1) * factorial_nat n.
Proof. cbn [factorial_nat]. f_equal. lia. Qed.
Lemma fact_pos n : 0 < factorial_nat n.
Proof. induction n; [cbn; lia|]. rewrite fact_S. nia. Qed.
Lemma fact_0 : factorial_nat 0 = 1.
Proof. reflexivity. Qed.

Definition two (n : nat) : Z := 2 ^ Z.of_nat n.
Lemma two_S n : two (S n) = 2 * two n.
Proof. unfold two. rewrite Nat2Z.inj_succ, Z.pow_succ_r; lia. Qed.
Lemma two_0 : two 0 = 1.
Proof. reflexivity. Qed.
Lemma two_pos n : 0 < two n.
Proof. apply Z.pow_pos_nonneg; lia. Qed.

(** [n = i + m] *)
Lemma number_fact n : forall i m, (n = i + m)%nat -> factorial_nat (n + m) = number n i * (two m * factorial_nat i * factorial_nat m).
Proof.
  induction n using two_steps; intros i m E.
  - assert (i = 0%nat) by lia. assert (m = 0%nat) by lia. subst. reflexivity.
  - destruct i as [|[|i]]; [|assert (m = 0%nat) by lia|lia].
    + assert (m = 1%nat) by lia. subst. reflexivity.
    + subst. reflexivity.
  - rewrite number_S. destruct m as [|m].
    { (* the leading coefficient *)
      rewrite number_high by lia. destruct i as [|[|i]]; try lia. assert (n = i) by lia. subst i.
      rewrite number_lead, Nat.add_0_r, fact_0, two_0. ring. }
    destruct i as [|[|i]].
    + (* the constant coefficient *)
      assert (m = S n) by lia. subst m. pose proof (IHn0 0%nat (S n) ltac:(lia)) as H.
      replace (S (S n) + S (S n))%nat with (S (S (S n + S n))) by lia. rewrite (fact_S (S (S n + S n))), (fact_S (S n + S n)), H, (two_S (S n)), (fact_S (S n)), fact_0.
      replace (Z.of_nat (S (S n + S n)) + 1) with (2 * (Z.of_nat (S n) + 1)) by lia. replace (Z.of_nat (S n + S n) + 1) with (2 * Z.of_nat n + 3) by lia. ring.
    + assert (m = n) by lia. subst m. pose proof (IHn0 1%nat n ltac:(lia)) as H.
      replace (S (S n) + S n)%nat with (S (S (S n + n))) by lia. rewrite (fact_S (S (S n + n))), (fact_S (S n + n)), H, (two_S n), (fact_S n), (fact_S 0), fact_0.
      replace (Z.of_nat (S (S n + n)) + 1) with (2 * Z.of_nat n + 3) by lia. replace (Z.of_nat (S n + n) + 1) with (2 * (Z.of_nat n + 1)) by lia. ring.
    + assert (Hn : n = (i + S m)%nat) by lia. pose proof (IHn i (S m) ltac:(lia)) as H. pose proof (IHn0 (S (S i)) m ltac:(lia)) as H0.
      replace (S (S n) + S m)%nat with (S (S (n + S m))) by lia. rewrite (fact_S (S (n + S m))), (fact_S (n + S m)).
      replace (n + S m)%nat with (S n + m)%nat in * by lia.
      rewrite !two_S, !(fact_S m), !(fact_S (S i)), !(fact_S i) in *.
      set (a := number (S n) (S (S i))) in *. set (b := number n i) in *. set (Fi := factorial_nat i) in *. set (Fm := factorial_nat m) in *. set (t := two m) in *.
      transitivity ((2 * Z.of_nat n + 3) * 2 * (Z.of_nat m + 1) * factorial_nat (S n + m) + (Z.of_nat (S i) + 1) * (Z.of_nat i + 1) * factorial_nat (S n + m)).
      * rewrite <- Z.mul_add_distr_r, Z.mul_assoc. f_equal. lia.
      * rewrite H0 at 1. rewrite H. ring.
Qed.

Lemma number_div n i : (i <= n)%nat ->
  factorial_nat (n + (n - i)) / (2 ^ Z.of_nat (n - i) * factorial_nat i * factorial_nat (n - i)) = number n i.
Proof.
  intros H. rewrite (number_fact n i (n - i)) by lia. fold (two (n - i)). apply Z.div_mul.
  pose proof (two_pos (n - i)). pose proof (fact_pos i). pose proof (fact_pos (n - i)). nia.
Qed.

Lemma number_nonneg n : forall i, 0 <= number n i.
Proof.
  induction n using two_steps; intros i; [rewrite number_0; destruct i; lia|rewrite number_1; destruct i as [|[|i]]; lia|].
  rewrite number_S. pose proof (IHn0 i). destruct i as [|[|i]]; try nia. pose proof (IHn i). nia.
Qed.
Lemma number_pos n : 0 < number n 0.
Proof. induction n using two_steps; [reflexivity|reflexivity|]. rewrite number_S. nia. Qed.
(** ** The polynomials *)

Fixpoint evaluated (p : nat -> Z) (s : C) (n : nat) : C :=
  match n with
  | 0%nat => C_of_R (IZR (p 0%nat))
  | S m => Cadd (Cmul (C_of_R (IZR (p n))) (Cpow s n)) (evaluated p s m)
  end.

Lemma evaluated_step c (q p : nat -> Z) s n :
  evaluated (fun i => c * q i + match i with S (S k) => p k | _ => 0 end) s (S (S n)) =
  Cadd (Cmul (C_of_R (IZR c)) (evaluated q s (S (S n)))) (Cmul (Cmul s s) (evaluated p s n)).
Proof.
  induction n as [|n IH].
  - cbn [evaluated Cpow]. rewrite !Z.add_0_r, !plus_IZR, !mult_IZR. apply C_ext; cbn; ring.
  - set (r := fun i => c * q i + match i with S (S k) => p k | _ => 0 end) in *.
    change (evaluated r s (S (S (S n)))) with (Cadd (Cmul (C_of_R (IZR (c * q (S (S (S n))) + p (S n)))) (Cpow s (S (S (S n))))) (evaluated r s (S (S n)))).
    rewrite IH, plus_IZR, mult_IZR.
    change (evaluated q s (S (S (S n)))) with (Cadd (Cmul (C_of_R (IZR (q (S (S (S n)))))) (Cpow s (S (S (S n))))) (evaluated q s (S (S n)))).
    change (evaluated p s (S n)) with (Cadd (Cmul (C_of_R (IZR (p (S n)))) (Cpow s (S n))) (evaluated p s n)).
    generalize (evaluated q s (S (S n))), (evaluated p s n). intros x y. cbn [Cpow]. generalize (Cpow s n). intros w. generalize (IZR c), (IZR (q (S (S (S n))))), (IZR (p (S n))). intros.
    apply C_ext; cbn; ring.
Qed.

Lemma evaluated_ext p q s n : (forall i, p i = q i) -> evaluated p s n = evaluated q s n.
Proof. intros H. induction n; cbn [evaluated]; rewrite ?H, ?IHn; reflexivity. Qed.

Lemma bessel_0 s : bessel_polynomial 0 s = C1.
Proof. reflexivity. Qed.
Lemma bessel_1 s : bessel_polynomial 1 s = Cadd s C1.
Proof. reflexivity. Qed.
Lemma bessel_S n s : bessel_polynomial (S (S n)) s = Cadd (Cmul (C_of_R (2 * INR (S n) + 1)) (bessel_polynomial (S n) s)) (Cmul (Cmul s s) (bessel_polynomial n s)).
Proof. unfold bessel_polynomial. cbn [bessel_polynomials]. destruct (bessel_polynomials n s) as [p q]. reflexivity. Qed.

Lemma bessel_evaluated n s : bessel_polynomial n s = evaluated (number n) s n.
Proof.
  induction n using two_steps.
  - reflexivity.
  - rewrite bessel_1. cbn [evaluated Cpow]. rewrite !number_1. ring.
  - rewrite bessel_S, IHn, IHn0. rewrite (evaluated_ext (number (S (S n))) _ s (S (S n)) (number_S n)), evaluated_step.
    f_equal. f_equal.
    + f_equal. rewrite S_INR, plus_IZR, mult_IZR, <- INR_IZR_INZ. ring.
    + change (evaluated (number (S n)) s (S (S n))) with (Cadd (Cmul (C_of_R (IZR (number (S n) (S (S n))))) (Cpow s (S (S n)))) (evaluated (number (S n)) s (S n))).
      rewrite number_high by lia. ring.
Qed.

Lemma evaluated_0 p n : evaluated p C0 n = C_of_R (IZR (p 0%nat)).
Proof. induction n as [|n IH]; [reflexivity|]. cbn [evaluated]. rewrite IH. cbn [Cpow]. ring. Qed.
Lemma bessel_at_0 n : bessel_polynomial n C0 = C_of_R (IZR (number n 0)).
Proof. now rewrite bessel_evaluated, evaluated_0. Qed.

(** The polynomials have no zeros on the imaginary axis. *)
Lemma casoratian n s : Csub (Cmul (bessel_polynomial (S n) s) (bessel_polynomial n (Cneg s))) (Cmul (bessel_polynomial (S n) (Cneg s)) (bessel_polynomial n s)) =
  Cmul (Cmul (C_of_R 2) s) (Cpow (Cneg (Cmul s s)) n).
Proof.
  induction n as [|n IH].
  - rewrite !bessel_0, !bessel_1. cbn [Cpow]. replace (C_of_R 2) with (Cadd C1 C1) by (apply C_ext; cbn; ring). ring.
  - rewrite !bessel_S. cbn [Cpow]. replace (Cmul (Cmul (C_of_R 2) s) (Cmul (Cneg (Cmul s s)) (Cpow (Cneg (Cmul s s)) n)))
      with (Cmul (Cneg (Cmul s s)) (Cmul (Cmul (C_of_R 2) s) (Cpow (Cneg (Cmul s s)) n))) by ring. rewrite <- IH. ring.
Qed.

Lemma bessel_conj n s : bessel_polynomial n (Cconj s) = Cconj (bessel_polynomial n s).
Proof.
  induction n using two_steps.
  - rewrite !bessel_0. apply C_ext; cbn; ring.
  - rewrite !bessel_1. apply C_ext; cbn; ring.
  - rewrite !bessel_S, IHn, IHn0. apply C_ext; cbn; ring.
Qed.

Lemma bessel_not_0 n y : bessel_polynomial n (0, y)%R <> C0.
Proof.
  destruct (Req_EM_T y 0) as [->|Hy].
  - change (0, 0)%R with C0. rewrite bessel_at_0. intros E. injection E as E. apply eq_IZR in E. pose proof (number_pos n). lia.
  - destruct n as [|n]; [rewrite bessel_0; intros E; injection E; lra|]. intros E.
    pose proof (casoratian n (0, y)%R) as W. rewrite E in W.
    replace (Cneg (0, y)%R) with (Cconj (0, y)%R) in W by (apply C_ext; cbn; ring). rewrite !bessel_conj, E in W.
    replace (Cconj C0) with C0 in W by (apply C_ext; cbn; ring).
    assert (N : Cmul (Cmul (C_of_R 2) (0, y)%R) (Cpow (Cneg (Cmul (0, y)%R (0, y)%R)) n) = C0) by (rewrite <- W; ring).
    replace (Cneg (Cmul (0, y)%R (0, y)%R)) with (C_of_R (y * y)) in N by (apply C_ext; cbn; ring). rewrite Cpow_real in N.
    apply (f_equal im) in N. cbn [im Cmul C_of_R fst snd re] in N. assert (y * y <> 0)%R by nra. pose proof (pow_nonzero (y * y) n H). 
    assert (Z : (2 * y * (y * y) ^ n = 0)%R) by lra. apply Rmult_integral in Z as [Z|Z]; [lra|contradiction].
Qed.

(** ** The filter *)

Lemma power_int_pow power modulo k n : power_int (real_mathematics power modulo) k (Z.of_nat n) = (k ^ n)%R.
Proof.
  unfold power_int. cbn [real_mathematics m_ops real_ops o_one o_mul]. induction n as [|n IH]; [reflexivity|].
  replace (Z.of_nat (S n)) with (Z.of_nat n + 1) by lia. rewrite zseq_app by lia. rewrite fold_left_app, IH. cbn [zseq fold_left]. change (zseq (0 + Z.of_nat n) 1) with [0 + Z.of_nat n + 0]. cbn [fold_left pow]. ring.
Qed.

Lemma sequence_ok {Y W} (op : Y -> result W) (g : Y -> W) l : (forall y, In y l -> op y = Ok (g y)) -> sequence (map op l) = Ok (map g l).
Proof.
  induction l as [|y l IH]; intros H; [reflexivity|]. cbn [map sequence]. rewrite H by now left. cbn [bind]. rewrite IH by (intros; apply H; now right). reflexivity.
Qed.

Lemma factorial_ok n : factorial (Z.of_nat n) = Ok (factorial_nat n).
Proof. unfold factorial. replace (Z.of_nat n <? 0) with false by lia. now rewrite Nat2Z.id. Qed.

Section Bessel.
Variable power modulo : R -> R -> R.
Variable cpower cmodulo : C -> C -> C.
Variable log2_c exp2_c : C -> C.
Variable junk : C.
Notation T := (complex_arithmetic cpower cmodulo log2_c exp2_c).
Notation EA := (complex_exact cpower cmodulo log2_c exp2_c).
Notation M := (real_mathematics power modulo).

Definition scaled (n : nat) (k : R) (i : nat) : R := (IZR (number n i) / IZR (number n 0) * k ^ i)%R.
Fixpoint coefficients (n : nat) (k : R) (i : nat) : list R := match i with 0%nat => [1%R] | S m => scaled n k i :: coefficients n k m end.

Lemma length_coefficients n k i : List.length (coefficients n k i) = S i.
Proof. induction i; cbn; auto. Qed.

Lemma coefficients_value n k s i :
  polynomial T (map C_of_R (coefficients n k i)) s = Cdiv (evaluated (number n) (Cmul (C_of_R k) s) i) (C_of_R (IZR (number n 0))).
Proof.
  assert (N : C_of_R (IZR (number n 0)) <> C0).
  { intros E. injection E as E. apply eq_IZR in E. pose proof (number_pos n). lia. }
  assert (N' : IZR (number n 0) <> 0%R) by (intros E; apply N; now rewrite E).
  induction i as [|i IH].
  - cbn [coefficients map polynomial TermsSpec.power List.length complex_arithmetic complex_ops k_ops o_add o_mul o_zero o_one evaluated].
    change (1, 0)%R with C1. change (0, 0)%R with C0. field. auto.
  - cbn [coefficients map]. cbn [polynomial]. rewrite IH, map_length, length_coefficients. clear IH.
    cbn [evaluated complex_arithmetic complex_ops k_ops o_add o_mul].
    replace (TermsSpec.power T s (S i)) with (Cpow s (S i)).
    2: { generalize (S i). intros m. induction m as [|m IH]; [reflexivity|]. cbn [Cpow TermsSpec.power complex_arithmetic complex_ops k_ops o_mul]. now rewrite IH. }
    rewrite Cpow_mul, Cpow_real. unfold scaled.
    replace (C_of_R (IZR (number n (S i)) / IZR (number n 0) * k ^ S i)) with (Cmul (Cdiv (C_of_R (IZR (number n (S i)))) (C_of_R (IZR (number n 0)))) (C_of_R (k ^ S i))).
    + field. auto.
    + generalize (k ^ S i)%R. intros w. apply C_ext; cbn; unfold norm2; cbn; field; auto.
Qed.

Lemma bessel_coefficients n k i :
  map (fun i => IZR (number n (Z.to_nat i)) / IZR (number n 0) * power_int M k i)%R (rev (zseq 1 (Z.of_nat i))) ++ [1%R] = coefficients n k i.
Proof.
  induction i as [|i IH]; [reflexivity|].
  replace (Z.of_nat (S i)) with (Z.of_nat i + 1) by lia. rewrite zseq_app by lia. change (zseq (1 + Z.of_nat i) 1) with [1 + Z.of_nat i + 0].
  rewrite rev_app_distr. cbn [rev app map coefficients]. f_equal; [|exact IH].
  replace (1 + Z.of_nat i + 0) with (Z.of_nat (S i)) by lia. rewrite power_int_pow, Nat2Z.id. reflexivity.
Qed.

Lemma bessel_term fc order hp k : 0 <= order -> frequency_scaling M fc hp = Ok k ->
  bessel M T fc order hp = div T (Constant C1) (polynomial_factory T (map C_of_R (coefficients (Z.to_nat order) k (Z.to_nat order))) hp).
Proof.
  intros Ho Ek. set (n := Z.to_nat order). assert (E : order = Z.of_nat n) by (unfold n; lia). unfold bessel. rewrite Ek. cbn [bind].
  rewrite E. replace (2 * Z.of_nat n) with (Z.of_nat (n + n)) by lia. rewrite !factorial_ok. cbn [bind].
  assert (C : factorial_nat (n + n) / (2 ^ Z.of_nat n * factorial_nat n) = number n 0).
  { rewrite <- (number_div n 0) by lia. rewrite Nat.sub_0_r, fact_0, Z.mul_1_r. reflexivity. }
  rewrite C.
  rewrite (sequence_ok _ (fun i => IZR (number n (Z.to_nat i)) / IZR (number n 0) * power_int M k i)%R).
  - cbn [bind]. unfold polynomial_. rewrite <- (bessel_coefficients n k n). reflexivity.
  - intros i Hi. apply in_rev in Hi. apply in_zseq in Hi. destruct (Z_of_nat_complete i ltac:(lia)) as [m ->]. rewrite Nat2Z.id.
    replace (Z.of_nat n - Z.of_nat m) with (Z.of_nat (n - m)) by lia. replace (Z.of_nat n + Z.of_nat (n - m)) with (Z.of_nat (n + (n - m))) by lia.
    rewrite !factorial_ok. cbn [bind]. rewrite number_div by lia. reflexivity.
Qed.

Lemma coefficients_steep n k : k <> 0%R -> steep (map C_of_R (coefficients (S n) k (S n))).
Proof.
  intros Hk. assert (L : exists a l, coefficients (S n) k n = a :: l) by (destruct n; cbn [coefficients]; eauto). destruct L as (a & l & L).
  cbn [coefficients map]. rewrite L. cbn [map steep]. intros E. injection E as E. unfold scaled in E. rewrite number_lead in E.
  pose proof (pow_nonzero k (S n) Hk). pose proof (number_pos (S n)) as P. apply IZR_lt in P.
  apply Rmult_integral in E as [E|E]; [|contradiction]. unfold Rdiv in E. rewrite Rmult_1_l in E. apply Rinv_neq_0_compat in E; lra.
Qed.

Lemma relative_variable_ok hp fc f : fc <> 0%R -> evaluable hp f ->
  relative_variable hp fc f = (0, (if hp then - relative_frequency hp fc f else relative_frequency hp fc f))%R.
Proof.
  intros Hc E. unfold relative_variable, relative_frequency. destruct hp; [specialize (E eq_refl)|]; apply C_ext; cbn; unfold norm2; cbn; field; auto.
Qed.

Lemma bessel_response fc order hp : 0 <= order -> fc <> 0%R ->
  exists F, bessel_filter M T fc order hp = Ok F /\ f_count F = 1 /\ f_labels F = ["Bessel"%string] /\
    (forall f, evaluable hp f -> response T junk F 0 f =
      Some (Cdiv (bessel_polynomial (Z.to_nat order) (C_of_R 0)) (bessel_polynomial (Z.to_nat order) (relative_variable hp fc f)))) /\
    (hp = true -> 1 <= order -> response T junk F 0 0%R = Some C0).
Proof.
  intros Ho Hc. destruct (scaling_ok power modulo hp fc Hc) as (k & Ek & Hk). unfold bessel_filter. rewrite (bessel_term fc order hp k Ho Ek).
  assert (NZ : forall f, evaluable hp f -> bessel_polynomial (Z.to_nat order) (relative_variable hp fc f) <> C0).
  { intros f Hf. rewrite relative_variable_ok by auto. apply bessel_not_0. }
  destruct (Z.to_nat order) as [|n] eqn:En.
  - cbn [coefficients map]. assert (P : polynomial_factory T [C1] hp = Constant C1).
    { unfold polynomial_factory. cbn [drop_zeros]. replace (is_null T C1) with false; [reflexivity|]. symmetry. apply (is_null_neq T EA). intros E. injection E. lra. }
    rewrite P. cbn [div]. replace (is_null T C1) with false; [|symmetry; apply (is_null_neq T EA); intros E; injection E; lra].
    eexists. split; [reflexivity|]. split; [reflexivity|]. split; [reflexivity|]. split; [|lia].
    intros f _. reflexivity.
  - pose proof (coefficients_steep n k Hk) as S. rewrite factory_steep by exact S.
    destruct (inverse_product cpower cmodulo log2_c exp2_c junk [map C_of_R (coefficients (Datatypes.S n) k (Datatypes.S n))] hp "Bessel" ltac:(discriminate) (Forall_cons _ S (Forall_nil _)))
      as (F & E & N & L & V & Z).
    rewrite product_shape in E by (try discriminate; repeat constructor; exact S). cbn [bind product_of invert] in E.
    exists F. split; [|split; [exact N|split; [exact L|split; [|intros H _; now apply Z]]]].
    + rewrite <- E. cbn [div]. replace (is_null T C1) with false; [reflexivity|]. symmetry. apply (is_null_neq T EA). intros Q. injection Q. lra.
    + intros f Hf. specialize (NZ f Hf). pose proof (bessel_not_0 (Datatypes.S n) 0) as N0. change (0, 0)%R with C0 in N0.
      assert (VV : Cprod [map C_of_R (coefficients (Datatypes.S n) k (Datatypes.S n))] (fun c => polynomial T c (variable cpower cmodulo log2_c exp2_c hp f)) =
        Cdiv (bessel_polynomial (Datatypes.S n) (relative_variable hp fc f)) (bessel_polynomial (Datatypes.S n) C0)).
      { rewrite Cprod_cons, Cprod_nil, coefficients_value, (scaled_variable power modulo cpower cmodulo log2_c exp2_c hp fc f k Hc Hf Ek), <- relative_variable_ok, <- bessel_evaluated, <- bessel_at_0 by auto.
        field. exact N0. }
      rewrite V, VV; auto.
      * f_equal. field. auto.
      * rewrite VV. intros Q. apply NZ.
        transitivity (Cmul (bessel_polynomial (Datatypes.S n) C0) (Cdiv (bessel_polynomial (Datatypes.S n) (relative_variable hp fc f)) (bessel_polynomial (Datatypes.S n) C0))).
        -- field. exact N0.
        -- rewrite Q. ring.
Qed.

End Bessel.
