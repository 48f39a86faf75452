(** Products of complex numbers and the factorisation of [z^n - w^n]. *)

From Coq Require Import ZArith List Bool Lia ZifyBool Reals Lra Ring_theory Field_theory Ring Field.
From Verif.Model Require Import Py Signal.
From Verif.Spec Require Import ComplexSpec DftSpec.
From Verif.Proofs Require Import PyFacts ComplexFacts DftFacts.
Import ListNotations.
Open Scope Z_scope.
Ltac Zify.zify_post_hook ::= idtac.

Lemma C_field : field_theory C0 C1 Cadd Cmul Csub Cneg Cdiv Cinv eq.
Proof.
  constructor; [apply C_ring| | |].
  - intros H. injection H. lra.
  - reflexivity.
  - intros z Hz. apply Cmul_inv. exact Hz.
Qed.
Add Field complex_roots : C_field.

Lemma in_zseq k lo n : In k (zseq lo n) -> lo <= k < lo + n.
Proof. unfold zseq. intros H. apply in_map_iff in H as (i & <- & Hi). apply in_seq in Hi. lia. Qed.

(** ** Powers *)

Fixpoint Cpow (z : C) (n : nat) : C := match n with O => C1 | S n => Cmul z (Cpow z n) end.

Lemma Cpow_add z m n : Cpow z (m + n) = Cmul (Cpow z m) (Cpow z n).
Proof. induction m; cbn [Cpow Nat.add]; [ring|rewrite IHm; ring]. Qed.
Lemma Cpow_mul z w n : Cpow (Cmul z w) n = Cmul (Cpow z n) (Cpow w n).
Proof. induction n; cbn [Cpow]; [ring|rewrite IHn; ring]. Qed.
Lemma Cpow_1 n : Cpow C1 n = C1.
Proof. induction n; cbn [Cpow]; [reflexivity|rewrite IHn; ring]. Qed.
Lemma Cpow_cis t n : Cpow (cis t) n = cis (INR n * t).
Proof.
  induction n; [cbn; rewrite Rmult_0_l; now rewrite cis_0|]. cbn [Cpow]. rewrite IHn, <- cis_add. f_equal. rewrite S_INR. ring.
Qed.
Lemma Cpow_real x n : Cpow (C_of_R x) n = C_of_R (x ^ n).
Proof. induction n; cbn [Cpow pow]; [reflexivity|]. rewrite IHn. apply C_ext; cbn; ring. Qed.
Lemma Cpow_not_0 z n : z <> C0 -> Cpow z n <> C0.
Proof. intros Hz. induction n; cbn [Cpow]; [intros H; injection H; lra|]. intros H. apply C_integral in H. tauto. Qed.
Lemma Cpow_root n k m : 0 < n -> Cpow (root n k) m = root n (k * Z.of_nat m).
Proof.
  intros Hn. induction m; cbn [Cpow]; [rewrite Z.mul_0_r; symmetry; now apply root_0|].
  rewrite IHm, <- root_add by auto. f_equal. lia.
Qed.

(** ** Products *)

Definition Cprod {Y} (l : list Y) (f : Y -> C) : C := fold_right (fun y a => Cmul (f y) a) C1 l.

Lemma Cprod_nil {Y} (f : Y -> C) : Cprod [] f = C1.
Proof. reflexivity. Qed.
Lemma Cprod_cons {Y} y l (f : Y -> C) : Cprod (y :: l) f = Cmul (f y) (Cprod l f).
Proof. reflexivity. Qed.
Lemma Cprod_app {Y} (l m : list Y) f : Cprod (l ++ m) f = Cmul (Cprod l f) (Cprod m f).
Proof. induction l as [|y l IH]; cbn [app]; rewrite ?Cprod_nil, ?Cprod_cons; [ring|]. rewrite IH. ring. Qed.
Lemma Cprod_ext {Y} (l : list Y) f g : (forall y, In y l -> f y = g y) -> Cprod l f = Cprod l g.
Proof. induction l as [|y l IH]; intros H; [reflexivity|]. rewrite !Cprod_cons, H by now left. rewrite IH; auto. intros; apply H; now right. Qed.
Lemma Cprod_mul {Y} (l : list Y) f g : Cprod l (fun y => Cmul (f y) (g y)) = Cmul (Cprod l f) (Cprod l g).
Proof. induction l as [|y l IH]; rewrite ?Cprod_nil, ?Cprod_cons; [ring|]. rewrite IH. ring. Qed.
Lemma Cprod_map {Y W} (h : W -> Y) (l : list W) f : Cprod (map h l) f = Cprod l (fun w => f (h w)).
Proof. induction l as [|y l IH]; [reflexivity|]. cbn [map]. rewrite !Cprod_cons. now rewrite IH. Qed.
Lemma Cprod_rev {Y} (l : list Y) f : Cprod (rev l) f = Cprod l f.
Proof. induction l as [|y l IH]; [reflexivity|]. cbn [rev]. rewrite Cprod_app, IH, !Cprod_cons, Cprod_nil. ring. Qed.
Lemma Cprod_const {Y} (l : list Y) z : Cprod l (fun _ => z) = Cpow z (List.length l).
Proof. induction l as [|y l IH]; [reflexivity|]. rewrite Cprod_cons, IH. reflexivity. Qed.
Lemma Cprod_not_0 {Y} (l : list Y) f : (forall y, In y l -> f y <> C0) -> Cprod l f <> C0.
Proof.
  induction l as [|y l IH]; intros H; [intros E; injection E; lra|]. rewrite Cprod_cons. intros E. apply C_integral in E as [E|E]; [eapply H; [now left|exact E]|].
  revert E. apply IH. intros; apply H; now right.
Qed.
Lemma Cprod_0 {Y} (l : list Y) f y : In y l -> f y = C0 -> Cprod l f = C0.
Proof. induction l as [|x l IH]; intros [] E; rewrite Cprod_cons. { subst. rewrite E. ring. } rewrite IH by auto. ring. Qed.

(** ** Polynomials, whose leading coefficient is 1; the lowest coefficient comes first *)

Fixpoint monic (l : list C) (z : C) : C := match l with [] => C1 | c :: t => Cadd c (Cmul z (monic t z)) end.

Fixpoint divided (r : C) (l : list C) : list C :=
  match l with
  | [] | [_] => []
  | _ :: t => monic t r :: divided r t
  end.

Lemma monic_cons c t z : monic (c :: t) z = Cadd c (Cmul z (monic t z)).
Proof. reflexivity. Qed.
Lemma divided_ok r l : l <> [] -> forall z, monic l z = Cadd (monic l r) (Cmul (Csub z r) (monic (divided r l) z)).
Proof.
  induction l as [|c l IH]; intros H z; [easy|]. destruct l as [|d t]; [cbn [divided monic]; ring|].
  change (divided r (c :: d :: t)) with (monic (d :: t) r :: divided r (d :: t)). set (l := d :: t) in *.
  rewrite !monic_cons. rewrite (IH ltac:(easy) z) at 1. ring.
Qed.
Lemma length_divided r l : List.length (divided r l) = pred (List.length l).
Proof. induction l as [|c [|d t] IH]; [reflexivity|reflexivity|]. cbn [divided List.length pred] in *. now rewrite IH. Qed.

Lemma monic_roots roots : forall l, List.length l = List.length roots -> NoDup roots -> (forall r, In r roots -> monic l r = C0) ->
  forall z, monic l z = Cprod roots (fun r => Csub z r).
Proof.
  induction roots as [|r roots IH]; intros l L ND H z; [destruct l; [reflexivity|discriminate]|].
  assert (Hl : l <> []) by (intros ->; discriminate). inversion ND as [|? ? Hr ND']; subst.
  rewrite (divided_ok r l Hl z), H by now left. rewrite Cprod_cons. rewrite (IH (divided r l)); [ring| |auto|].
  - rewrite length_divided, L. reflexivity.
  - intros q Hq. pose proof (divided_ok r l Hl q) as E. rewrite (H r) in E by now left. rewrite (H q) in E by now right.
    assert (E' : Cmul (Csub q r) (monic (divided r l) q) = C0) by (rewrite E; ring).
    apply C_integral in E' as [E'|E']; auto. exfalso. apply Hr. replace r with q; auto.
    transitivity (Cadd r (Csub q r)); [ring|rewrite E'; ring].
Qed.

Lemma monic_zeros n z : monic (repeat C0 n) z = Cpow z n.
Proof. induction n; [reflexivity|]. cbn [repeat monic Cpow]. rewrite IHn. ring. Qed.

Lemma NoDup_map_in {Y W} (f : Y -> W) l : NoDup l -> (forall x y, In x l -> In y l -> f x = f y -> x = y) -> NoDup (map f l).
Proof.
  induction 1 as [|x l Hx ND IH]; intros H; cbn; [constructor|]. constructor.
  - intros Hi. apply in_map_iff in Hi as (y & E & Hy). apply Hx. replace x with y; auto. apply H; auto; [now right|now left].
  - apply IH. intros; apply H; auto; now right.
Qed.

Lemma NoDup_zseq lo n : NoDup (zseq lo n).
Proof.
  apply NoDup_nth_error. intros i k Hi E. destruct (nth_error (zseq lo n) i) eqn:Ei.
  - assert (H1 : zth (zseq lo n) (Z.of_nat i) = Some z) by (unfold zth; replace (Z.of_nat i <? 0) with false by lia; now rewrite Nat2Z.id).
    assert (H2 : zth (zseq lo n) (Z.of_nat k) = Some z) by (unfold zth; replace (Z.of_nat k <? 0) with false by lia; now rewrite Nat2Z.id).
    rewrite zth_seq in H1, H2. destruct (_ && _) in H1; [|discriminate]. destruct (_ && _) in H2; [|discriminate]. injection H1. injection H2. lia.
  - apply nth_error_None in Ei. lia.
Qed.

Lemma root_injective n i k : 0 < n -> 0 <= i < n -> 0 <= k < n -> root n i = root n k -> i = k.
Proof.
  intros Hn Hi Hk E. destruct (Z.eq_dec ((i - k) mod n) 0) as [H|H].
  - apply Z.mod_divide in H; [|lia]. destruct H as [q Hq]. assert (q = 0) by nia. lia.
  - exfalso. apply (root_not_1 n Hn (i - k) H). replace (i - k) with (i + - k) by lia. rewrite root_add, E, <- root_add by auto.
    replace (k + - k) with 0 by lia. now apply root_0.
Qed.

(** [z^n - w^n] is the product of the differences to the roots. *)
Lemma factorisation n z w : (0 < n)%nat -> w <> C0 ->
  Cprod (zseq 0 (Z.of_nat n)) (fun k => Csub z (Cmul w (root (Z.of_nat n) k))) = Csub (Cpow z n) (Cpow w n).
Proof.
  intros Hn Hw. rewrite <- (Cprod_map (fun k => Cmul w (root (Z.of_nat n) k)) _ (fun r => Csub z r)).
  destruct n as [|n]; [lia|]. rewrite <- (monic_roots _ (Cneg (Cpow w (S n)) :: repeat C0 n)).
  - cbn [monic]. rewrite monic_zeros. cbn [Cpow]. ring.
  - rewrite map_length. cbn [List.length]. rewrite repeat_length. unfold zseq. rewrite map_length, seq_length. lia.
  - apply NoDup_map_in; [apply NoDup_zseq|]. intros x y Hx Hy E. apply in_zseq in Hx, Hy.
    apply (root_injective (Z.of_nat (S n))); try lia.
    transitivity (Cmul (Cinv w) (Cmul w (root (Z.of_nat (S n)) x))); [field; exact Hw|]. rewrite E. field. exact Hw.
  - intros r Hr. apply in_map_iff in Hr as (k & <- & _). cbn [monic]. rewrite monic_zeros.
    change (Cmul (Cmul w (root (Z.of_nat (S n)) k)) (Cpow (Cmul w (root (Z.of_nat (S n)) k)) n)) with (Cpow (Cmul w (root (Z.of_nat (S n)) k)) (S n)).
    rewrite Cpow_mul, Cpow_root, root_mul_n by lia. ring.
Qed.

(** ** Products of numbers and their conjugates *)

Lemma norm2_conj z : Cmul z (Cconj z) = C_of_R (norm2 z).
Proof. unfold norm2. apply C_ext; cbn; ring. Qed.
Lemma norm2_mul z w : norm2 (Cmul z w) = (norm2 z * norm2 w)%R.
Proof. unfold norm2. cbn. ring. Qed.
Lemma norm2_prod {Y} (l : list Y) f : norm2 (Cprod l f) = fold_right (fun y a => norm2 (f y) * a)%R 1%R l.
Proof. induction l as [|y l IH]; cbn [fold_right]; [unfold norm2; cbn; ring|]. rewrite Cprod_cons, norm2_mul. now rewrite IH. Qed.

Lemma zseq_app lo n m : 0 <= n -> 0 <= m -> zseq lo (n + m) = zseq lo n ++ zseq (lo + n) m.
Proof.
  intros Hn Hm. apply zth_ext_in; [rewrite zlen_app, !zlen_seq; lia|]. intros k Hk. rewrite zlen_seq in Hk.
  rewrite zth_seq, zth_app, zlen_seq, !zth_seq. destruct (k <? Z.max 0 n) eqn:E.
  - replace ((0 <=? k) && (k <? n + m)) with true by lia. now replace ((0 <=? k) && (k <? n)) with true by lia.
  - replace ((0 <=? k) && (k <? n + m)) with true by lia. replace ((0 <=? k - Z.max 0 n) && (k - Z.max 0 n <? m)) with true by lia. f_equal. lia.
Qed.

