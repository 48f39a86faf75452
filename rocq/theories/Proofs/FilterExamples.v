(** Examples of filters *)

From Coq Require Import String ZArith List Bool Lia Reals Lra.
From Verif.Model Require Import Py Functions Signal Spectrum Terms Filter Interpolation.
From Verif.Spec Require Import TermsSpec FilterSpec FrequencySpec InterpolationSpec ComplexSpec.
From Verif.Proofs Require Import PyFacts InterpolationFacts ComplexFacts TermFacts FilterFacts FilterResults.
Import ListNotations.
Open Scope Z_scope.

(** The channel "a" is [(1 + s) / 2] and the channel "b" is 3 below 10 Hz and 4 above 10 Hz. *)
Definition demo_filter : filter C R :=
  mk_filter [Quotient (Sum [Constant (1, 0)%R; Polynomial [(1, 0)%R; (0, 0)%R] false] false) (Constant (2, 0)%R) false;
             Bands [5; 15]%R [(3, 0); (4, 0)]%R StairsLin StairsLin] ["a"; "b"]%string.
(** The same with the lowpass-to-highpass transform: [(1 + 1 / s) / 2] *)
Definition demo_highpass : filter C R :=
  mk_filter [Quotient (Sum [Constant (1, 0)%R; Polynomial [(1, 0)%R; (0, 0)%R] false] false) (Constant (2, 0)%R) true] ["c"]%string.

Lemma demo_bands : proper (Bands [5; 15]%R [(3, 0); (4, 0)]%R StairsLin StairsLin : term C R).
Proof.
  split; [discriminate|]. split; [|split; [reflexivity|split; right; now left]].
  constructor; [intros [H|[]]; lra|]. constructor; [intros []|constructor].
Qed.

Lemma filter_example : regular_filter Untransformed demo_filter /\ regular_filter NoDifferences demo_filter /\ regular_filter NoDifferences demo_highpass /\
  labelled demo_filter /\ compatible (f_count demo_filter) (f_count demo_highpass) /\ ~ compatible 2 3.
Proof.
  split; [|split; [|split; [|split; [|split]]]].
  - constructor; [cbn; repeat split; try discriminate|constructor; [|constructor]]. split; [|exact I]. split; [apply demo_bands|reflexivity].
  - constructor; [cbn; repeat split; try discriminate|constructor; [|constructor]]. split; [|exact I]. split; [apply demo_bands|exact I].
  - constructor; [|constructor]. cbn; repeat split; discriminate.
  - reflexivity.
  - right. left. reflexivity.
  - unfold compatible. intros [H|[H|H]]; discriminate.
Qed.

Section Values.
Variables power modulo : C -> C -> C.
Variables log2_c exp2_c : C -> C.
Notation A := (complex_arithmetic power modulo log2_c exp2_c).
Variable junk : C.

Lemma plain_example : labelled demo_filter /\ f_count demo_filter = 2 /\ forall f, plain_at A demo_filter f.
Proof.
  split; [reflexivity|]. split; [reflexivity|]. intros f. right. repeat constructor.
Qed.

Lemma two_not_zero : C_eqb (2, 0)%R (0, 0)%R = false.
Proof. destruct (C_eqb (2, 0)%R (0, 0)%R) eqn:E; [|reflexivity]. apply C_eqb_eq in E. injection E. intros. lra. Qed.

Lemma filter_values_example f :
  response A junk demo_filter 0 f = Some (1 / 2, PI * f)%R /\ response A junk demo_filter 1 20%R = Some (4, 0)%R /\
  (f <> 0%R -> defined_at A NoDifferences f /\ response A junk demo_highpass 0 f = Some (1 / 2, - / (4 * PI * f))%R).
Proof.
  pose proof PI_RGT_0 as P.
  assert (N : f <> 0%R -> s_of A f <> o_zero (k_ops A)).
  { intros Hf E. injection E. intros E1. apply Hf. assert (H : (PI * f = 0)%R) by lra. apply Rmult_integral in H as [H|H]; lra. }
  split; [|split].
  - rewrite (response_at A junk (complex_exact _ _ _ _)) by apply plain_example. cbn [transfer_functions demo_filter mk_filter]. rewrite zth_cons.
    cbn [Z.eqb value transform fold_right lift2 polynomial List.length TermsSpec.power quotient]. cbn [complex_arithmetic k_ops complex_ops o_eqb o_zero].
    rewrite two_not_zero. f_equal. apply C_ext; cbn; unfold norm2; cbn; field.
  - rewrite (response_at A junk (complex_exact _ _ _ _)) by apply plain_example. cbn [transfer_functions demo_filter mk_filter]. rewrite !zth_cons.
    change (1 - 1 =? 0) with true. cbn [Z.eqb value]. unfold bands_at. cbn [last]. change (x_ltb A) with R_ltb. unfold R_ltb. destruct (Rlt_dec 20 5); [lra|]. destruct (Rlt_dec 15 20); [|lra].
    cbn [orb]. change (interpolate A) with (interpolate_ (real_axes (complex_ops power modulo) C_of_R log2_c exp2_c)).
    destruct (stairs_nearest (complex_ops power modulo) C_of_R log2_c exp2_c [5; 15]%R [(3, 0); (4, 0)]%R 20%R) as (k & (a & Ha & H) & ->); [discriminate|show_increasing|reflexivity|].
    assert (K1 : k = 1); [|now subst]. rewrite !zth_cons, zth_nil in Ha. destruct (k =? 0) eqn:K0; [|destruct (k - 1 =? 0) eqn:K1; [apply Z.eqb_eq in K1; lia|discriminate]].
    injection Ha as <-. destruct (H 1 15%R eq_refl) as [H1 _]. rewrite !Rabs_pos_eq in H1 by lra. lra.
  - intros Hf. split; [now apply N|]. rewrite (response_at A junk (complex_exact _ _ _ _)) by (left; now apply N). cbn [transfer_functions demo_highpass mk_filter]. rewrite zth_cons.
    cbn [Z.eqb value transform fold_right lift2 polynomial List.length TermsSpec.power quotient]. cbn [complex_arithmetic k_ops complex_ops o_eqb o_zero].
    rewrite two_not_zero. f_equal. unfold inverse. apply C_ext; cbn; unfold norm2; cbn; field; repeat split; try lra; auto; try (intros E; apply (N Hf); apply C_ext; cbn; nra).
Qed.

Lemma factory_example : Forall (regular NoDifferences) (transfer_functions demo_filter) /\ allowed NoDifferences true /\
  exists t u, transfer_functions demo_filter = [t; u] /\ sum_factory A [t; Constant (0, 0)%R] false = Ok t /\ is_zero A t = false.
Proof.
  split; [apply filter_example|]. split; [exact I|]. eexists _, _. split; [reflexivity|].
  assert (Z : is_null A (0, 0)%R = true) by (now apply (is_null_eq A (complex_exact _ _ _ _))).
  assert (O : is_null A (1, 0)%R = false) by (apply (is_null_neq A (complex_exact _ _ _ _)); cbn; intros E; injection E; lra).
  unfold sum_factory, sum_factory_, is_zero. cbn [size fold_right Nat.add is_zero_n forallb List.filter]. rewrite Z, O. cbn. auto.
Qed.

Lemma readable_example : Forall (every (readable A (fun z => C_of_R (re z)) (fun z => C_of_R (im z)) j)) (transfer_functions demo_filter).
Proof.
  constructor; [cbn; repeat split|]. constructor; [|constructor]. split; [|exact I]. split; [discriminate|]. intros y _. apply C_ext; cbn; ring.
Qed.

Lemma sampling_example : exists s, filter_spectrum A junk (fun k x => (IZR k * x)%R) demo_filter 10%R 3 = Ok s /\ bin s 0 2 = Some (Some (1 / 2, PI * 20)%R).
Proof.
  destruct (filter_spectrum_ok A junk (fun k x => (IZR k * x)%R) demo_filter 10%R 3 eq_refl) as (s & E & _ & _ & _ & _ & _ & V); [easy|].
  exists s. split; [exact E|]. rewrite V by (unfold demo_filter, f_count, zlen; cbn; easy). f_equal. replace (IZR 2 * 10)%R with 20%R by lra. apply filter_values_example.
Qed.

End Values.
