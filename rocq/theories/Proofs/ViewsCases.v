(** Examples for the axes and the views of data sets. *)

From Coq Require Import String ZArith QArith Reals List Bool Lra.
From Verif.Model Require Import Py Numpy Signal Spectrum Tables Views.
From Verif.Spec Require Import InterpolationSpec ComplexSpec ViewsSpec.
From Verif.Proofs Require Import ViewsFacts.
Import ListNotations.
Open Scope list_scope.
Open Scope Z_scope.

Definition demo_axis_signal : signal Q := mk_signal (Arr [[1; 2; 3]%Q] 3) 2%Q (-1) None.
Definition demo_axis_spectrum : spectrum Q Q := mk_spectrum (Arr [[1; 2; 3; 4]%Q] 4) (5 # 2)%Q None.

Lemma demo_axes_ok :
  match time_samples demo_axis_signal, frequency_samples demo_axis_spectrum with
  | Ok t, Ok f => map Qred t = [(-1 # 2)%Q; 0%Q; (1 # 2)%Q] /\ map Qred f = [0%Q; (5 # 2)%Q; 5%Q; (15 # 2)%Q]
  | _, _ => False
  end /\ wf_signal demo_axis_signal /\ wf_spectrum demo_axis_spectrum.
Proof. split; [vm_compute; auto|]. split; (split; [split; [vm_compute; discriminate|repeat constructor]|reflexivity]). Qed.

Lemma demo_views_ok :
  spectrum_phase numpy_functions (mk_spectrum (Arr [[(0, -2); (-3, 0)]%R] 2) 1%Q None) = Arr [[- (PI / 2); PI]%R] 2 /\
  spectrum_magnitude numpy_functions (mk_spectrum (Arr [[(0, -2); (-3, 0)]%R] 2) 1%Q None) = Arr [[2; 3]%R] 2.
Proof.
  assert (L : forall x y, (x < y)%R -> R_ltb x y = true) by (intros; unfold R_ltb; destruct (Rlt_dec x y); auto; lra).
  assert (G : forall x y, (y <= x)%R -> R_ltb x y = false) by (intros; unfold R_ltb; destruct (Rlt_dec x y); auto; lra).
  unfold spectrum_phase, spectrum_magnitude, ufunc1, mk_spectrum, numpy_functions. cbn [absolute angle sp_channels rows cols map].
  split; f_equal; f_equal; f_equal; try f_equal; unfold argument, modulus, norm2, re, im; cbn [fst snd].
  - rewrite (G 0 0)%R, (G 0 (-2))%R, (L (-2) 0)%R by lra. reflexivity.
  - rewrite (G 0 (-3))%R, (L (-3) 0)%R, (G 0 0)%R by lra. replace (0 / -3)%R with 0%R by lra. rewrite atan_0. lra.
  - replace (0 * 0 + -2 * -2)%R with (2 * 2)%R by lra. apply sqrt_square. lra.
  - replace (-3 * -3 + 0 * 0)%R with (3 * 3)%R by lra. apply sqrt_square. lra.
Qed.
