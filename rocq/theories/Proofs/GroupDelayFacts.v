(** The group delay of Bessel filters. *)

From Coq Require Import String ZArith List Bool Lia ZifyBool Reals Lra Ring_theory Field_theory Ring Field.
From Verif.Model Require Import Py Functions Signal Terms Filter Rolloff.
From Verif.Spec Require Import TermsSpec FilterSpec RealSpec ComplexSpec DftSpec RolloffSpec.
From Verif.Proofs Require Import PyFacts ComplexFacts DftFacts RootsFacts RolloffFacts ButterworthFacts BesselFacts.
Import ListNotations.
Open Scope R_scope.

(** ** Derivatives *)

Lemma derivable_ext f g x d : (forall y, f y = g y) -> derivable_pt_lim f x d -> derivable_pt_lim g x d.
Proof. intros E H e He. destruct (H e He) as [del Q]. exists del. intros h. rewrite <- !E. apply Q. Qed.
Lemma derivable_eq f x d e : d = e -> derivable_pt_lim f x d -> derivable_pt_lim f x e.
Proof. now intros ->. Qed.

Lemma derivative_ext f g x d e : (forall y, f y = g y) -> d = e -> has_derivative f x d -> has_derivative g x e.
Proof.
  intros E <- [H1 H2]. split; (eapply derivable_ext; [|eassumption]); intros y; cbn; now rewrite E.
Qed.

Lemma derivative_const c x : has_derivative (fun _ => c) x C0.
Proof. split; apply derivable_pt_lim_const. Qed.
Lemma derivative_line x : has_derivative (fun x => (0, x)) x j.
Proof. split; cbn; [apply derivable_pt_lim_const|apply derivable_pt_lim_id]. Qed.
Lemma derivative_add f g x d e : has_derivative f x d -> has_derivative g x e -> has_derivative (fun x => Cadd (f x) (g x)) x (Cadd d e).
Proof.
  intros [H1 H2] [H3 H4]. split; cbn.
  - apply (derivable_pt_lim_plus (fun x => re (f x)) (fun x => re (g x))); auto.
  - apply (derivable_pt_lim_plus (fun x => im (f x)) (fun x => im (g x))); auto.
Qed.
Lemma derivative_mul f g x d e : has_derivative f x d -> has_derivative g x e -> has_derivative (fun x => Cmul (f x) (g x)) x (Cadd (Cmul d (g x)) (Cmul (f x) e)).
Proof.
  intros [H1 H2] [H3 H4]. split; cbn.
  - eapply derivable_eq; [|apply (derivable_pt_lim_minus (fun x => re (f x) * re (g x)) (fun x => im (f x) * im (g x)));
      [apply (derivable_pt_lim_mult (fun x => re (f x)) (fun x => re (g x))); eauto|apply (derivable_pt_lim_mult (fun x => im (f x)) (fun x => im (g x))); eauto]].
    ring.
  - eapply derivable_eq; [|apply (derivable_pt_lim_plus (fun x => re (f x) * im (g x)) (fun x => im (f x) * re (g x)));
      [apply (derivable_pt_lim_mult (fun x => re (f x)) (fun x => im (g x))); eauto|apply (derivable_pt_lim_mult (fun x => im (f x)) (fun x => re (g x))); eauto]].
    ring.
Qed.

Lemma derivable_norm f x d : has_derivative f x d -> derivable_pt_lim (fun x => norm2 (f x)) x (2 * (re (f x) * re d + im (f x) * im d)).
Proof.
  intros [H1 H2]. unfold norm2. eapply derivable_eq; [|apply (derivable_pt_lim_plus (fun x => re (f x) * re (f x)) (fun x => im (f x) * im (f x)));
      [apply (derivable_pt_lim_mult (fun x => re (f x)) (fun x => re (f x))); eauto|apply (derivable_pt_lim_mult (fun x => im (f x)) (fun x => im (f x))); eauto]].
  ring.
Qed.

Lemma derivative_inv f x d : has_derivative f x d -> f x <> C0 -> has_derivative (fun x => Cinv (f x)) x (Cneg (Cdiv d (Cmul (f x) (f x)))).
Proof.
  intros H N. pose proof (derivable_norm f x d H) as HN. destruct H as [H1 H2]. pose proof (norm2_pos _ N) as P.
  split; cbn.
  - eapply derivable_eq; [|apply (derivable_pt_lim_div (fun x => re (f x)) (fun x => norm2 (f x))); [exact H1|exact HN|lra]].
    rewrite norm2_mul. unfold Rsqr. clear H1 H2 HN N. unfold norm2 in *. field. lra.
  - eapply derivable_eq; [|apply (derivable_pt_lim_div (fun x => - im (f x)) (fun x => norm2 (f x))); [apply (derivable_pt_lim_opp (fun x => im (f x))); exact H2|exact HN|lra]].
    rewrite norm2_mul. unfold Rsqr. clear H1 H2 HN N. unfold norm2 in *. field. lra.
Qed.

Lemma derivative_scale f a x d : has_derivative f (a * x) d -> has_derivative (fun x => f (a * x)) x (Cmul (C_of_R a) d).
Proof.
  assert (L : derivable_pt_lim (fun x => a * x) x a).
  { eapply derivable_eq; [|apply (derivable_pt_lim_scal id a x 1); apply derivable_pt_lim_id]. ring. }
  intros [H1 H2]. split; cbn.
  - eapply derivable_eq; [|apply (derivable_pt_lim_comp (fun x => a * x) (fun x => re (f x))); [exact L|exact H1]]. ring.
  - eapply derivable_eq; [|apply (derivable_pt_lim_comp (fun x => a * x) (fun x => im (f x))); [exact L|exact H2]]. ring.
Qed.

(** ** Bessel polynomials *)

Notation theta := bessel_polynomial.

Lemma two_of n : C_of_R (2 * INR (S (S n)) + 1) = Cadd (C_of_R (2 * INR (S n) + 1)) (Cadd C1 C1).
Proof. rewrite (S_INR (S n)). apply C_ext; cbn -[INR]; ring. Qed.

Lemma bessel_derivative n x : has_derivative (fun x => theta (S n) (0, x)) x (Cmul j (Csub (theta (S n) (0, x)) (Cmul (0, x) (theta n (0, x))))).
Proof.
  induction n using two_steps.
  - eapply (derivative_ext (fun x => Cadd (0, x) C1)); [intros; now rewrite bessel_1| |apply derivative_add; [apply derivative_line|apply derivative_const]].
    rewrite bessel_1, bessel_0. ring.
  - eapply (derivative_ext (fun x => Cadd (Cmul (C_of_R (2 * INR 1 + 1)) (Cadd (0, x) C1)) (Cmul (Cmul (0, x) (0, x)) C1))); [intros; now rewrite bessel_S| |].
    2: { apply derivative_add; apply derivative_mul; [apply derivative_const|apply derivative_add; [apply derivative_line|apply derivative_const]| |apply derivative_const].
         apply derivative_mul; apply derivative_line. }
    rewrite bessel_S, bessel_1, bessel_0. replace (C_of_R (2 * INR 1 + 1)) with (Cadd C1 (Cadd C1 C1)) by (apply C_ext; cbn; ring). ring.
  - eapply (derivative_ext (fun x => Cadd (Cmul (C_of_R (2 * INR (S (S n)) + 1)) (theta (S (S n)) (0, x))) (Cmul (Cmul (0, x) (0, x)) (theta (S n) (0, x))))); [intros; now rewrite (bessel_S (S n))| |].
    2: { apply derivative_add; apply derivative_mul; [apply derivative_const|exact IHn0| |exact IHn]. apply derivative_mul; apply derivative_line. }
    rewrite (bessel_S (S n) (0, x)), two_of.
    pose proof (bessel_S n (0, x)) as E. rewrite E. ring.
Qed.

Lemma square_norm z : Cmul z (Cconj z) = C_of_R (norm2 z).
Proof. apply norm2_conj. Qed.

(** The real part of the logarithmic derivative *)
Lemma bessel_delay n x : re (Cdiv (Csub (theta (S n) (0, x)) (Cmul (0, x) (theta n (0, x)))) (theta (S n) (0, x))) = 1 - x ^ (2 * S n) / norm2 (theta (S n) (0, x)).
Proof.
  set (a := theta (S n) (0, x)). set (b := theta n (0, x)). pose proof (casoratian n (0, x)) as W.
  replace (Cneg (0, x)) with (Cconj (0, x)) in W by (apply C_ext; cbn; ring). rewrite !bessel_conj in W. fold a b in W.
  replace (Cneg (Cmul (0, x) (0, x))) with (C_of_R (x ^ 2)) in W by (apply C_ext; cbn; ring). rewrite Cpow_real, <- pow_mult in W.
  assert (N : a <> C0) by apply bessel_not_0. pose proof (norm2_pos a N) as P.
  apply (f_equal im) in W. cbn [im Cmul Csub Cconj C_of_R fst snd re] in W.
  assert (E : re a * im b - im a * re b = - (x * x ^ (2 * n))) by lra.
  replace (x ^ (2 * S n)) with (x * x * x ^ (2 * n)) by (replace (2 * S n)%nat with (S (S (2 * n))) by lia; cbn [pow]; ring).
  transitivity ((norm2 a + x * (re a * im b - im a * re b)) / norm2 a).
  - unfold norm2. cbn [re im Cdiv Cmul Csub Cinv fst snd]. unfold norm2 in *. field. lra.
  - rewrite E. field. lra.
Qed.

Section Delay.
Variable power modulo : R -> R -> R.
Variable cpower cmodulo : C -> C -> C.
Variable log2_c exp2_c : C -> C.
Variable junk : C.
Notation T := (complex_arithmetic cpower cmodulo log2_c exp2_c).
Notation M := (real_mathematics power modulo).

Lemma bessel_group_delay fc order : (1 <= order)%Z -> fc <> 0 ->
  exists F H, bessel_filter M T fc order false = Ok F /\ (forall f, response T junk F 0 f = Some (H f)) /\
    forall f, group_delay H f ((1 - (f / fc) ^ (2 * Z.to_nat order) / norm2 (bessel_polynomial (Z.to_nat order) (0, f / fc))) / (2 * PI * fc)).
Proof.
  intros Ho Hc. destruct (bessel_response power modulo cpower cmodulo log2_c exp2_c junk fc order false ltac:(lia) Hc) as (F & E & _ & _ & V & _).
  destruct (Z.to_nat order) as [|n] eqn:En; [lia|].
  exists F, (fun f => Cmul (theta (S n) C0) (Cinv (theta (S n) (0, (/ fc) * f)))). split; [exact E|]. split.
  - intros f. rewrite V by easy. rewrite relative_variable_ok by easy. unfold relative_frequency, Rdiv. now rewrite (Rmult_comm f).
  - intros f. set (x := f / fc). assert (Ex : / fc * f = x) by (unfold x; field; auto).
    assert (N : theta (S n) (0, x) <> C0) by apply bessel_not_0. assert (N0 : theta (S n) C0 <> C0) by apply (bessel_not_0 (S n) 0).
    eexists. split.
    + apply derivative_mul; [apply derivative_const|]. apply (derivative_scale (fun y => Cinv (theta (S n) (0, y)))). apply derivative_inv; [apply bessel_derivative|rewrite Ex; exact N].
    + rewrite Ex. pose proof (bessel_delay n x) as D. set (a := theta (S n) (0, x)) in *. set (c := theta (S n) C0) in *. set (b := Csub a (Cmul (0, x) (theta n (0, x)))) in *.
      match goal with |- context [im ?w] => replace w with (Cneg (Cmul (Cmul (C_of_R (/ fc)) j) (Cdiv b a))) end.
      2: { rewrite ?Ex. fold a. field. auto. }
      rewrite <- D. generalize Hc. clear. generalize (Cdiv b a). intros w Hc. cbn. field. split; [auto|apply PI_neq0].
Qed.

End Delay.
