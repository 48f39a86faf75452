(** What follows from the responses of the predefined filters. *)

From Coq Require Import String ZArith List Bool Lia ZifyBool Reals Lra Psatz.
From Verif.Model Require Import Py Functions Signal Terms Filter Fourier Rolloff.
From Verif.Spec Require Import TermsSpec FilterSpec RealSpec ComplexSpec DftSpec RolloffSpec.
From Verif.Proofs Require Import PyFacts TermFacts TermOperators TermFuel FilterFacts FilterOperators ComplexFacts DftFacts RolloffFacts ButterworthFacts BesselFacts GroupDelayFacts ChebyshevFacts Chebyshev1Facts Chebyshev2Facts RippleFacts.
Import ListNotations.
Open Scope Z_scope.
Ltac Zify.zify_post_hook ::= idtac.

Section Results.
Variable power modulo : R -> R -> R.
Variable cpower cmodulo : C -> C -> C.
Variable log2_c exp2_c : C -> C.
Variable junk : C.
Notation T := (complex_arithmetic cpower cmodulo log2_c exp2_c).
Notation M := (real_mathematics power modulo).

Lemma at_cutoff hp fc : fc <> 0%R -> relative_frequency hp fc fc = 1%R.
Proof. intros H. unfold relative_frequency. destruct hp; field; exact H. Qed.
Lemma evaluable_cutoff hp fc : fc <> 0%R -> evaluable hp fc.
Proof. intros H _. exact H. Qed.
Lemma relative_abs hp fc f : fc <> 0%R -> evaluable hp f -> Rabs (relative_frequency hp fc f) = (if hp then Rabs fc / Rabs f else Rabs f / Rabs fc)%R.
Proof. intros Hc Hf. unfold relative_frequency. destruct hp; unfold Rdiv; rewrite Rabs_mult, Rabs_inv; reflexivity. Qed.

Lemma norm2_at_least z : (0 <= norm2 z)%R.
Proof. apply norm2_nonneg. Qed.

(** ** Butterworth *)

Lemma butterworth_half_power fc order hp : 1 <= order -> fc <> 0%R ->
  exists F z, butterworth_filter M T fc order hp = Ok F /\ response T junk F 0 fc = Some z /\ norm2 z = (1 / 2)%R.
Proof.
  intros Ho Hc. destruct (butterworth_response power modulo cpower cmodulo log2_c exp2_c junk fc order hp Ho Hc) as (F & E & _ & _ & V & _).
  destruct (V fc (evaluable_cutoff hp fc Hc)) as (z & R & N). exists F, z. split; [exact E|]. split; [exact R|]. rewrite N, at_cutoff, pow1 by exact Hc. lra.
Qed.

Lemma relative_monotone (hp : bool) fc f g : fc <> 0%R -> f <> 0%R -> g <> 0%R -> (Rabs f <= Rabs g)%R ->
  if hp then (Rabs (relative_frequency hp fc g) <= Rabs (relative_frequency hp fc f))%R else (Rabs (relative_frequency hp fc f) <= Rabs (relative_frequency hp fc g))%R.
Proof.
  intros Hc Hf Hg H. apply Rabs_pos_lt in Hc as Pc. apply Rabs_pos_lt in Hf as Pf. apply Rabs_pos_lt in Hg as Pg.
  destruct hp; rewrite !relative_abs by (auto; now intros _).
  - unfold Rdiv. apply Rmult_le_compat_l; [lra|]. now apply Rinv_le_contravar.
  - unfold Rdiv. apply Rmult_le_compat_r; [|exact H]. left. now apply Rinv_0_lt_compat.
Qed.

Lemma butterworth_monotone fc order (hp : bool) F f g y z : 1 <= order -> fc <> 0%R -> butterworth_filter M T fc order hp = Ok F ->
  response T junk F 0 f = Some y -> response T junk F 0 g = Some z -> (Rabs f <= Rabs g)%R -> if hp then (norm2 y <= norm2 z)%R else (norm2 z <= norm2 y)%R.
Proof.
  intros Ho Hc E Y Z H. destruct (butterworth_response power modulo cpower cmodulo log2_c exp2_c junk fc order hp Ho Hc) as (F' & E' & _ & _ & V & V0).
  rewrite E in E'. injection E' as <-. set (n := Z.to_nat order) in *.
  assert (B : forall s t, (0 <= s <= t)%R -> (1 / (1 + t ^ (2 * n)) <= 1 / (1 + s ^ (2 * n)))%R).
  { intros s t L. assert (0 <= s ^ (2 * n))%R by (apply pow_le; lra). assert (s ^ (2 * n) <= t ^ (2 * n))%R by (now apply pow_incr).
    unfold Rdiv. rewrite !Rmult_1_l. apply Rinv_le_contravar; lra. }
  destruct hp.
  - destruct (Req_dec f 0) as [->|Hf].
    + rewrite V0 in Y by reflexivity. injection Y as <-. rewrite norm2_real. replace (0 * 0)%R with 0%R by ring. apply norm2_nonneg.
    + assert (Hg : g <> 0%R) by (intros ->; rewrite Rabs_R0 in H; apply Rabs_pos_lt in Hf; lra).
      destruct (V f) as (y' & Y' & Ny); [now intros _|]. destruct (V g) as (z' & Z' & Nz); [now intros _|]. rewrite Y in Y'. injection Y' as <-. rewrite Z in Z'. injection Z' as <-.
      rewrite Ny, Nz, (pow_abs (relative_frequency _ _ f)), (pow_abs (relative_frequency _ _ g)). apply B. split; [apply Rabs_pos|]. exact (relative_monotone true fc f g Hc Hf Hg H).
  - destruct (V f) as (y' & Y' & Ny); [discriminate|]. destruct (V g) as (z' & Z' & Nz); [discriminate|]. rewrite Y in Y'. injection Y' as <-. rewrite Z in Z'. injection Z' as <-.
    rewrite Ny, Nz, (pow_abs (relative_frequency _ _ f)), (pow_abs (relative_frequency _ _ g)). apply B. split; [apply Rabs_pos|]. apply Rabs_pos_lt in Hc as Pc.
    rewrite !relative_abs by (auto; discriminate). unfold Rdiv. apply Rmult_le_compat_r; [|exact H]. left. now apply Rinv_0_lt_compat.
Qed.

Lemma butterworth_order_0 fc hp : fc <> 0%R -> butterworth_filter M T fc 0 hp = Err ZeroDivisionError.
Proof.
  intros Hc. destruct (scaling_ok power modulo hp fc Hc) as (k & Ek & Hk). unfold butterworth_filter, butterworth. rewrite Ek. cbn [bind].
  unfold butterworth_factors. change (0 mod 2 =? 0) with true. cbv iota. change (zseq 1 (0 / 2)) with (@nil Z). cbn [map].
  unfold product_factory, product_factory_. change (zlen []) with 0. change (0 =? 0) with true. cbn [orb bind].
  unfold invert. change (o_zero (k_ops T)) with C0. replace (is_null T C0) with true; [reflexivity|]. symmetry. apply (is_null_eq T (complex_exact cpower cmodulo log2_c exp2_c)). reflexivity.
Qed.

Lemma cutoff_0 order hp : hp = false ->
  butterworth_filter M T 0%R order hp = Err ZeroDivisionError /\ bessel_filter M T 0%R order hp = Err ZeroDivisionError /\
  (forall ripple, chebyshev1_filter M T 0%R ripple order hp = Err ZeroDivisionError /\ chebyshev2_filter M T 0%R ripple order hp = Err ZeroDivisionError).
Proof.
  intros ->. assert (E : frequency_scaling M 0%R false = Err ZeroDivisionError).
  { unfold frequency_scaling. cbn. destruct (Req_EM_T 0 0); [reflexivity|contradiction]. }
  unfold butterworth_filter, butterworth, bessel_filter, bessel. rewrite E. split; [reflexivity|]. split; [reflexivity|]. intros ripple.
  unfold chebyshev1_filter, chebyshev2_filter, chebyshev1, chebyshev2, butterworth. rewrite E. split; [|reflexivity]. now destruct (o_eqb _ _ _).
Qed.

(** ** Bessel *)

Lemma bessel_at_0 n : bessel_polynomial n C0 <> C0.
Proof. pose proof (bessel_not_0 n 0) as H. exact H. Qed.

Lemma bessel_low fc order : 0 <= order -> fc <> 0%R -> exists F, bessel_filter M T fc order false = Ok F /\ response T junk F 0 0%R = Some C1.
Proof.
  intros Ho Hc. destruct (bessel_response power modulo cpower cmodulo log2_c exp2_c junk fc order false Ho Hc) as (F & E & _ & _ & V & _). exists F. split; [exact E|].
  rewrite V by discriminate. f_equal. replace (relative_variable false fc 0) with C0.
  - pose proof (bessel_at_0 (Z.to_nat order)) as N. set (z := bessel_polynomial _ _) in *. unfold Cdiv. transitivity (Cmul (Cinv z) z); [apply C_ext; cbn; ring|now apply Cmul_inv].
  - unfold relative_variable. assert (C_of_R fc <> C0) by (intros Q; injection Q; contradiction). apply C_ext; cbn; ring.
Qed.

Lemma bessel_cutoff_refuted : exists F z, bessel_filter M T 1000%R 2 false = Ok F /\ response T junk F 0 1000%R = Some z /\ norm2 z = (9 / 13)%R.
Proof.
  destruct (bessel_response power modulo cpower cmodulo log2_c exp2_c junk 1000%R 2 false ltac:(lia) ltac:(lra)) as (F & E & _ & _ & V & _). eexists F, _. split; [exact E|].
  split; [apply V; discriminate|]. change (Z.to_nat 2) with 2%nat. replace (relative_variable false 1000 1000) with j.
  - rewrite norm2_div.
    + unfold bessel_polynomial, norm2. cbn -[Rmult Rplus Ropp IZR]. field_simplify_eq; lra.
    + pose proof (bessel_not_0 2 1) as Q. intros H. apply Q. rewrite <- H. reflexivity.
  - unfold relative_variable. apply C_ext; cbn; unfold norm2; cbn; field.
Qed.

(** ** Chebyshev, type 1 *)

Definition positive_ripple (ripple : R) : ripple <> 0%R -> (1 < Rpower 10 (Rabs ripple / 10))%R.
Proof.
  intros H. apply Rabs_pos_lt in H. rewrite <- (Rpower_O 10) by lra. apply Rpower_lt; lra.
Qed.

Lemma chebyshev1_ripple fc ripple order hp F f z : 1 <= order -> fc <> 0%R -> ripple <> 0%R -> chebyshev1_filter M T fc ripple order hp = Ok F ->
  evaluable hp f -> response T junk F 0 f = Some z ->
  let r := Rpower 10 (Rabs ripple / 10) in let x := Rabs (relative_frequency hp fc f) in
  ((x <= 1)%R -> if Z.even order then (1 <= norm2 z <= r)%R else (1 / r <= norm2 z <= 1)%R) /\
  (x = 1%R -> norm2 z = if Z.even order then 1%R else (1 / r)%R) /\
  ((1 < x)%R -> if Z.even order then (norm2 z < 1)%R else (norm2 z < 1 / r)%R).
Proof.
  intros Ho Hc Hr E Hf Z r x. destruct (chebyshev1_response power modulo cpower cmodulo log2_c exp2_c junk fc ripple order hp Ho Hc Hr) as (F' & E' & _ & _ & V & _).
  rewrite E in E'. injection E' as <-. destruct (V f Hf) as (z' & Z' & N). rewrite Z in Z'. injection Z' as <-. pose proof (positive_ripple ripple Hr) as P. fold r in N, P |- *.
  assert (Hn : (1 <= Z.to_nat order)%nat) by lia. set (n := Z.to_nat order) in *. set (y := relative_frequency hp fc f) in *. rewrite N.
  assert (S : (0 <= cheb n y ^ 2)%R) by apply pow2_ge_0.
  assert (D : (0 < 1 + (r - 1) * cheb n y ^ 2)%R) by nra.
  assert (LE : forall a b, (a * (1 + (r - 1) * cheb n y ^ 2) <= b -> a <= b / (1 + (r - 1) * cheb n y ^ 2))%R).
  { intros a b H. apply (Rmult_le_reg_r (1 + (r - 1) * cheb n y ^ 2)); [exact D|]. unfold Rdiv. rewrite Rmult_assoc, Rinv_l by lra. lra. }
  assert (GE : forall a b, (b <= a * (1 + (r - 1) * cheb n y ^ 2) -> b / (1 + (r - 1) * cheb n y ^ 2) <= a)%R).
  { intros a b H. apply (Rmult_le_reg_r (1 + (r - 1) * cheb n y ^ 2)); [exact D|]. unfold Rdiv. rewrite Rmult_assoc, Rinv_l by lra. lra. }
  assert (GT : forall a b, (b < a * (1 + (r - 1) * cheb n y ^ 2) -> b / (1 + (r - 1) * cheb n y ^ 2) < a)%R).
  { intros a b H. apply (Rmult_lt_reg_r (1 + (r - 1) * cheb n y ^ 2)); [exact D|]. unfold Rdiv. rewrite Rmult_assoc, Rinv_l by lra. lra. }
  assert (I : (1 / r * r = 1)%R) by (field; lra). assert (I0 : (0 < 1 / r)%R) by (apply Rdiv_lt_0_compat; lra).
  split; [|split].
  - intros B. pose proof (cheb_inside n y B) as K. destruct (Z.even order); split; try apply LE; try apply GE; try nra.
  - intros B. pose proof (cheb_at_1 n y B) as K. rewrite K. destruct (Z.even order); field; lra.
  - intros B. pose proof (cheb_outside n y Hn B) as K. destruct (Z.even order); apply GT; nra.
Qed.

Lemma chebyshev1_without_ripple fc order hp : 1 <= order -> fc <> 0%R ->
  exists F, chebyshev1_filter M T fc 0%R order hp = Ok F /\ f_labels F = ["Chebyshev 1"%string] /\
    forall f, evaluable hp f -> exists z, response T junk F 0 f = Some z /\ norm2 z = (1 / (1 + relative_frequency hp fc f ^ (2 * Z.to_nat order)))%R.
Proof.
  intros Ho Hc. destruct (butterworth_response power modulo cpower cmodulo log2_c exp2_c junk fc order hp Ho Hc) as (F & E & _ & _ & V & _).
  unfold butterworth_filter in E. apply bind_ok in E as (t & Et & E). injection E as <-.
  unfold chebyshev1_filter. cbn [m_ops real_mathematics real_ops o_eqb o_zero]. destruct (Req_EM_T 0 0) as [_|Q]; [|contradiction].
  exists (rolloff_filter t "Chebyshev 1"). split; [change (butterworth _ T fc order hp) with (butterworth M T fc order hp); now rewrite Et|]. split; [reflexivity|exact V].
Qed.

(** ** Chebyshev, type 2 *)

Lemma chebyshev2_stop_band fc ripple order hp F f z : 1 <= order -> fc <> 0%R -> ripple <> 0%R -> chebyshev2_filter M T fc ripple order hp = Ok F ->
  f <> 0%R -> response T junk F 0 f = Some z ->
  let r := Rpower 10 (Rabs ripple / 10) in let stop := if hp then (Rabs f <= Rabs fc)%R else (Rabs fc <= Rabs f)%R in
  (stop -> (norm2 z <= 1 / r)%R) /\ (Rabs f = Rabs fc -> norm2 z = (1 / r)%R) /\ (~ stop -> (1 / r < norm2 z < 1)%R).
Proof.
  intros Ho Hc Hr E Hf Z r stop. destruct (chebyshev2_response power modulo cpower cmodulo log2_c exp2_c junk fc ripple order hp Ho Hc Hr) as (F' & E' & _ & _ & V & _).
  rewrite E in E'. injection E' as <-. destruct (V f Hf) as (z' & Z' & N). rewrite Z in Z'. injection Z' as <-. pose proof (positive_ripple ripple Hr) as P. fold r in N, P |- *.
  assert (Hn : (1 <= Z.to_nat order)%nat) by lia. set (n := Z.to_nat order) in *. set (y := relative_frequency (negb hp) fc f) in *. cbv zeta in N. rewrite N.
  assert (S : (0 <= cheb n y ^ 2)%R) by apply pow2_ge_0. apply Rabs_pos_lt in Hc as Pc. apply Rabs_pos_lt in Hf as Pf.
  assert (Ey : Rabs y = (if hp then Rabs f / Rabs fc else Rabs fc / Rabs f)%R) by (unfold y; rewrite relative_abs by (auto; now intros _); now destruct hp).
  assert (Q : forall a b, (0 < b -> a <= b -> a / b <= 1)%R).
  { intros a b Hb H. apply (Rmult_le_reg_r b); [exact Hb|]. unfold Rdiv. rewrite Rmult_assoc, Rinv_l by lra. lra. }
  assert (Q' : forall a b, (0 < b -> b < a -> 1 < a / b)%R).
  { intros a b Hb H. apply (Rmult_lt_reg_r b); [exact Hb|]. unfold Rdiv. rewrite Rmult_assoc, Rinv_l by lra. lra. }
  assert (D : (0 < cheb n y ^ 2 + (r - 1))%R) by lra. assert (I : (r * (1 / r) = 1)%R) by (field; lra). assert (I0 : (0 < 1 / r)%R) by (apply Rdiv_lt_0_compat; lra).
  split; [|split].
  - intros B. assert (K : (cheb n y ^ 2 <= 1)%R) by (apply cheb_inside; rewrite Ey; unfold stop in B; destruct hp; now apply Q).
    apply (Rmult_le_reg_r (cheb n y ^ 2 + (r - 1))); [exact D|]. unfold Rdiv at 1. rewrite Rmult_assoc, Rinv_l by lra. nra.
  - intros B. assert (K : (cheb n y ^ 2 = 1)%R) by (apply cheb_at_1; rewrite Ey, B; destruct hp; field; lra). rewrite K. field. lra.
  - intros B. assert (K : (1 < cheb n y ^ 2)%R) by (apply cheb_outside; auto; rewrite Ey; unfold stop in B; destruct hp; apply Q'; lra).
    split; apply (Rmult_lt_reg_r (cheb n y ^ 2 + (r - 1))); auto; unfold Rdiv at 2 || unfold Rdiv at 1; rewrite ?Rmult_assoc, ?Rinv_l by lra; nra.
Qed.

End Results.
