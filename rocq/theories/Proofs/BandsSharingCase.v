(** A bands filter, whose dictionary is changed after its creation. *)

From Coq Require Import String ZArith List Bool Lia Reals Lra.
From Verif.Model Require Import Py Functions Signal Terms Filter Bands BandsSharing.
From Verif.Spec Require Import BandsSpec BandsSharingSpec.
From Verif.Proofs Require Import PyFacts BandsClass BandsCases.
Import ListNotations.
Open Scope Z_scope.

Section Case.
Context {X : Type}.
Variable A : arithmetic R X.
Hypothesis OA : ordered A.
Hypothesis M : forall x y, o_mul (k_ops A) x y = (x * y)%R.
Hypothesis Q : forall x y, o_div (k_ops A) x y = (x / y)%R.
Variable x : X.

Lemma one_point y f g l : f = OneFlag Logarithmic \/ f = Flags [Logarithmic] -> g = OneFlag StairsLin \/ g = Flags [StairsLin] ->
  mk_bands A [[(x, y)]] f g [l] = Ok (MkBands (Filter [Bands [x] [y] Logarithmic StairsLin] [l]) [[(x, y)]] [Logarithmic] [StairsLin]).
Proof.
  intros [-> | ->] [-> | ->]; unfold mk_bands; cbn; unfold bands_term, dict_item; cbn; rewrite (x_eqb_refl A OA); reflexivity.
Qed.

Definition changed_later : list (action (K := R) (X := X)) :=
  [NewDictionary [(x, 1%R)]; Create [0] (OneFlag Logarithmic) (OneFlag StairsLin) ["a"%string]; Assign 0 x 10%R; ToDb 0 1%R 20%R].

Lemma changed_later_refuted : exists m v s0 s1 B1,
  run A decimal_logarithm power_of_10 (Memory [] []) changed_later = Ok m /\ performed_all A decimal_logarithm power_of_10 ([], []) changed_later = Ok v /\
  dictionaries m = [[(x, 10%R)]] /\ filters m = [s0; s1] /\ zth (snd v) 1 = Some B1 /\
  transfer_functions (st_filter s0) = [Bands [x] [1%R] Logarithmic StairsLin] /\
  transfer_functions (b_filter B1) = [Bands [x] [0%R] Logarithmic StairsLin] /\
  transfer_functions (st_filter s1) = [Bands [x] [20%R] Logarithmic StairsLin].
Proof.
  assert (L : forall y, to_db A decimal_logarithm (MkBands (Filter [Bands [x] [1%R] Logarithmic StairsLin] ["a"%string]) [[(x, y)]] [Logarithmic] [StairsLin]) 1%R 20%R
    = Ok (MkBands (Filter [Bands [x] [(20 * decimal_logarithm (y / 1))%R] Logarithmic StairsLin] ["a"%string]) [[(x, (20 * decimal_logarithm (y / 1))%R)]] [Logarithmic] [StairsLin])).
  { intros y. unfold to_db. cbn [b_bands b_interpolations b_extrapolations b_filter f_labels map]. rewrite M, Q. apply one_point; now right. }
  assert (N1 : (20 * decimal_logarithm (1 / 1) = 0)%R) by (unfold decimal_logarithm; replace (1 / 1)%R with 1%R by field; rewrite ln_1; unfold Rdiv; ring).
  assert (N10 : (20 * decimal_logarithm (10 / 1) = 20)%R) by (unfold decimal_logarithm; replace (10 / 1)%R with 10%R by field; field; pose proof ln10; lra).
  assert (O : mk_bands A [[(x, 1%R)]] (OneFlag Logarithmic) (OneFlag StairsLin) ["a"%string]
    = Ok (MkBands (Filter [Bands [x] [1%R] Logarithmic StairsLin] ["a"%string]) [[(x, 1%R)]] [Logarithmic] [StairsLin])) by (apply one_point; now left).
  lazy -[to_db mk_bands x_eqb decimal_logarithm IZR].
  repeat match goal with |- context [mk_bands A ?b ?f ?g ?l] => rewrite (O : mk_bands A b f g l = _) end.
  lazy -[to_db mk_bands x_eqb decimal_logarithm IZR]. rewrite !(x_eqb_refl A OA).
  lazy -[to_db mk_bands x_eqb decimal_logarithm IZR].
  repeat match goal with |- context [to_db A decimal_logarithm ?B ?r ?f] =>
    first [rewrite (L 10%R : to_db A decimal_logarithm B r f = _) | rewrite (L 1%R : to_db A decimal_logarithm B r f = _)] end.
  rewrite N1, N10. eexists _, _, _, _, _. now repeat split.
Qed.

(** The dictionary, that is changed, is another one. *)
Definition changed_another : list (action (K := R) (X := X)) :=
  [NewDictionary [(x, 1%R)]; NewDictionary []; Create [0] (OneFlag Logarithmic) (OneFlag StairsLin) ["a"%string]; Assign 1 x 10%R; ToDb 0 1%R 20%R].

Lemma changed_another_case : undisturbed changed_another /\ exists m, run A decimal_logarithm power_of_10 (Memory [] []) changed_another = Ok m.
Proof.
  split.
  - intros [| a [| b [| c [| d [| f before]]]]] n z y after ns i e labels E I; try discriminate.
    + injection E as <- <- <- <- _ _ _. destruct I as [I | [I | [I | []]]]; try discriminate. injection I as <- _ _ _. now intros [N | []].
    + injection E as _ _ _ _ _ E. destruct before; discriminate.
  - assert (O : mk_bands A [[(x, 1%R)]] (OneFlag Logarithmic) (OneFlag StairsLin) ["a"%string]
      = Ok (MkBands (Filter [Bands [x] [1%R] Logarithmic StairsLin] ["a"%string]) [[(x, 1%R)]] [Logarithmic] [StairsLin])) by (apply one_point; now left).
    assert (L : exists D, to_db A decimal_logarithm (MkBands (Filter [Bands [x] [1%R] Logarithmic StairsLin] ["a"%string]) [[(x, 1%R)]] [Logarithmic] [StairsLin]) 1%R 20%R = Ok D).
    { eexists. unfold to_db. cbn [b_bands b_interpolations b_extrapolations b_filter f_labels map]. apply one_point; now right. }
    destruct L as [D L].
    lazy -[to_db mk_bands x_eqb decimal_logarithm IZR].
    repeat match goal with |- context [mk_bands A ?b ?f ?g ?l] => rewrite (O : mk_bands A b f g l = _) end.
    lazy -[to_db mk_bands x_eqb decimal_logarithm IZR].
    repeat match goal with |- context [to_db A decimal_logarithm ?B ?r ?f] => rewrite (L : to_db A decimal_logarithm B r f = _) end.
    eexists. reflexivity.
Qed.
End Case.
