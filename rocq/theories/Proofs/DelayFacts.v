(** The filters for delays and derivatives. *)

From Coq Require Import String ZArith List Bool Lia Reals Lra.
From Verif.Model Require Import Py Functions Signal Terms Filter Fourier Rolloff.
From Verif.Spec Require Import TermsSpec FilterSpec RealSpec ComplexSpec DftSpec RolloffSpec.
From Verif.Proofs Require Import PyFacts TermFacts TermOperators TermFuel FilterFacts FilterOperators ComplexFacts DftFacts RolloffFacts GroupDelayFacts.
Import ListNotations.
Open Scope Z_scope.

Section Delay.
Variable power modulo : R -> R -> R.
Variable cpower cmodulo : C -> C -> C.
Variable log2_c exp2_c : C -> C.
Variable junk : C.
Notation T := (complex_arithmetic cpower cmodulo log2_c exp2_c).
Notation EA := (complex_exact cpower cmodulo log2_c exp2_c).
Notation M := (real_mathematics power modulo).

Lemma derivative_cis x : has_derivative cis x (Cmul j (cis x)).
Proof.
  split; cbn.
  - eapply derivable_eq; [|apply derivable_pt_lim_cos]. ring.
  - eapply derivable_eq; [|apply derivable_pt_lim_sin]. ring.
Qed.

Lemma single_response t label f : response T junk (mk_filter [t] [label]) 0 f = evaluate T junk t f.
Proof. unfold response, filter_call, evaluate. cbn [transfer_functions mk_filter call_channels]. destruct (call T junk f t false false). reflexivity. Qed.

Lemma delay_response delay f : response T junk (delay_filter M T delay) 0 f = Some (cis (- (2 * PI * f * delay))).
Proof.
  unfold delay_filter. rewrite single_response. destruct (exp_factory_good T EA junk Untransformed (m_complex M (o_neg (m_ops M) delay) (o_zero (m_ops M))) false eq_refl) as [_ V].
  rewrite V by exact I. unfold evaluate. cbn [call transform xorb get_s fst fix_sample]. f_equal. unfold cis. apply C_ext; cbn.
  - replace (- delay * 0 - 0 * (2 * PI * f))%R with 0%R by ring. rewrite exp_0, Rmult_1_l. f_equal. ring.
  - replace (- delay * 0 - 0 * (2 * PI * f))%R with 0%R by ring. rewrite exp_0, Rmult_1_l. f_equal. ring.
Qed.

Lemma delay_ok delay : f_labels (delay_filter M T delay) = ["Delay"%string] /\ f_count (delay_filter M T delay) = 1 /\
  exists H, (forall f, response T junk (delay_filter M T delay) 0 f = Some (H f)) /\ forall f, modulus (H f) = 1%R /\ group_delay H f delay.
Proof.
  split; [reflexivity|]. split; [reflexivity|]. exists (fun f => cis ((- (2 * PI * delay)) * f)). split.
  - intros f. rewrite delay_response. do 2 f_equal. ring.
  - intros f. assert (N : forall x, norm2 (cis x) = 1%R) by (intros x; unfold norm2, cis; cbn; pose proof (sin2_cos2 x) as S; unfold Rsqr in S; lra).
    split; [unfold modulus; rewrite N; apply sqrt_1|]. eexists. split; [apply (derivative_scale cis), derivative_cis|].
    assert (Z : cis (- (2 * PI * delay) * f) <> (0, 0)%R) by (intros E; specialize (N (- (2 * PI * delay) * f)%R); rewrite E in N; unfold norm2 in N; cbn in N; lra).
    set (z := cis _) in *. replace (Cdiv _ z) with (Cmul (C_of_R (- (2 * PI * delay))) j).
    + cbn. field. apply PI_neq0.
    + pose proof (Cmul_inv z Z) as I. unfold Cdiv. transitivity (Cmul (Cmul (C_of_R (- (2 * PI * delay))) j) (Cmul (Cinv z) z)); [rewrite I; apply C_ext; cbn; ring|].
      generalize (Cinv z). intros y. apply C_ext; cbn; ring.
Qed.

Lemma derivative_ok : f_labels (derivative_filter M T) = ["Derivative"%string] /\ f_count (derivative_filter M T) = 1 /\
  forall f, response T junk (derivative_filter M T) 0 f = Some (0, 2 * PI * f)%R.
Proof.
  split; [reflexivity|]. split; [reflexivity|]. intros f. unfold derivative_filter. rewrite single_response. unfold polynomial_.
  destruct (polynomial_factory_good T EA junk Untransformed (map (fun x => m_complex M x (o_zero (m_ops M))) [m_float M 1; m_float M 0]) false eq_refl ltac:(discriminate)) as [_ V].
  rewrite V by exact I. unfold evaluate. cbn [call transform xorb get_s fst fix_sample]. f_equal. apply C_ext; cbn; ring.
Qed.

(** Delays in series are a delay *)
Lemma delays_add d e f y z : response T junk (delay_filter M T d) 0 f = Some y -> response T junk (delay_filter M T e) 0 f = Some z ->
  response T junk (delay_filter M T (d + e)%R) 0 f = Some (Cmul y z).
Proof.
  rewrite !delay_response. intros [= <-] [= <-]. f_equal. rewrite <- cis_add. f_equal. ring.
Qed.

End Delay.
