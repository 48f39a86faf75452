(** Sums over ranges of integers. *)

From Coq Require Import ZArith List Bool Lia ZifyBool Ring_theory Ring.
From Verif.Model Require Import Py Signal.
From Verif.Spec Require Import ConvolutionSpec.
From Verif.Proofs Require Import PyFacts.
Import ListNotations.
Open Scope Z_scope.

Lemma zseq_nil lo n : n <= 0 -> zseq lo n = [].
Proof. intros H. unfold zseq. replace (Z.to_nat n) with 0%nat by lia. reflexivity. Qed.

Lemma zseq_cons lo n : 0 < n -> zseq lo n = lo :: zseq (lo + 1) (n - 1).
Proof.
  intros H. unfold zseq. replace (Z.to_nat n) with (S (Z.to_nat (n - 1))) by lia. cbn [seq map]. f_equal; [lia|].
  rewrite <- seq_shift, map_map. apply map_ext. intros k. lia.
Qed.

Lemma zseq_shift lo n d : zseq (lo + d) n = map (fun k => k + d) (zseq lo n).
Proof. unfold zseq. rewrite map_map. apply map_ext. intros. lia. Qed.

(** Induction on the number of summands *)
Lemma count_ind (P : Z -> Prop) : P 0 -> (forall n, 0 <= n -> P n -> P (n + 1)) -> forall n, 0 <= n -> P n.
Proof. intros H0 HS n Hn. revert n Hn. apply natlike_ind; auto. Qed.

Section Sum.
Context {A : Type} (O : ops A) (RT : commutative_ring O).
Declare Scope ops_scope.
Notation "0" := (o_zero O) : ops_scope.
Notation "1" := (o_one O) : ops_scope.
Infix "+" := (o_add O) : ops_scope.
Infix "*" := (o_mul O) : ops_scope.
Infix "-" := (o_sub O) : ops_scope.
Delimit Scope ops_scope with o.
Add Ring sums_ring : (RT : ring_theory (o_zero O) (o_one O) (o_add O) (o_mul O) (o_sub O) (o_neg O) eq).
Implicit Types f g : Z -> A.

(** [f lo + ... + f (lo + n - 1)] *)
Definition sumz (lo n : Z) f : A := fold_right (fun k s => (f k + s)%o) 0%o (zseq lo n).

Lemma sum_between_sumz lo hi f : sum_between O lo hi f = sumz lo (hi - lo) f.
Proof. reflexivity. Qed.

Lemma sumz_nil lo n f : n <= 0 -> sumz lo n f = 0%o.
Proof. intros H. unfold sumz. rewrite zseq_nil; auto. Qed.

Lemma sumz_cons lo n f : 0 < n -> sumz lo n f = (f lo + sumz (lo + 1) (n - 1) f)%o.
Proof. intros H. unfold sumz. rewrite zseq_cons; auto. Qed.

Lemma sumz_ext lo n f g : (forall k, lo <= k < lo + n -> f k = g k) -> sumz lo n f = sumz lo n g.
Proof.
  destruct (Z_le_gt_dec 0 n) as [Hn|Hn]; [|intros; rewrite !sumz_nil by lia; auto].
  revert lo. pattern n. apply count_ind; [| |exact Hn]; [intros; rewrite !sumz_nil by lia; auto|].
  intros m Hm IH lo H. rewrite !(sumz_cons lo (m + 1)) by lia. rewrite H by lia. f_equal. replace (m + 1 - 1) with m by lia.
  apply IH. intros. apply H. lia.
Qed.

Lemma sumz_zero lo n f : (forall k, lo <= k < lo + n -> f k = 0%o) -> sumz lo n f = 0%o.
Proof.
  intros H. rewrite (sumz_ext _ _ _ (fun _ => 0%o)) by auto. clear H.
  destruct (Z_le_gt_dec 0 n) as [Hn|Hn]; [|rewrite sumz_nil by lia; auto].
  revert lo. pattern n. apply count_ind; [| |exact Hn]; [intros; apply sumz_nil; lia|].
  intros m Hm IH lo. rewrite sumz_cons by lia. replace (m + 1 - 1) with m by lia. rewrite IH. ring.
Qed.

Lemma sumz_app lo n m f : 0 <= n -> 0 <= m -> sumz lo (n + m) f = (sumz lo n f + sumz (lo + n) m f)%o.
Proof.
  intros Hn Hm. revert lo. pattern n. apply count_ind; [| |exact Hn].
  - intros lo. rewrite (sumz_nil lo 0) by lia. replace (0 + m) with m by lia. replace (lo + 0) with lo by lia. ring.
  - intros k Hk IH lo. rewrite (sumz_cons lo (k + 1 + m)), (sumz_cons lo (k + 1)) by lia.
    replace (k + 1 + m - 1) with (k + m) by lia. replace (k + 1 - 1) with k by lia. rewrite IH. replace (lo + 1 + k) with (lo + (k + 1)) by lia. ring.
Qed.

Lemma sumz_one lo f : sumz lo 1 f = f lo.
Proof. rewrite sumz_cons by lia. rewrite sumz_nil by lia. ring. Qed.

Lemma sumz_snoc lo n f : 0 < n -> sumz lo n f = (sumz lo (n - 1) f + f (lo + n - 1)%Z)%o.
Proof.
  intros H. replace n with (n - 1 + 1) at 1 by lia. rewrite sumz_app by lia. rewrite sumz_one. do 2 f_equal. lia.
Qed.

Lemma sumz_shift lo n d f : sumz lo n (fun k => f (k + d)) = sumz (lo + d) n f.
Proof.
  unfold sumz. rewrite zseq_shift. induction (zseq lo n) as [|k l IH]; cbn; auto. now rewrite IH.
Qed.

Lemma sumz_flip lo n s f : 0 <= n -> sumz lo n (fun k => f (s - k)) = sumz (s - lo - n + 1) n f.
Proof.
  intros Hn. revert lo. pattern n. apply count_ind; [| |exact Hn]; [intros; rewrite !sumz_nil by lia; auto|].
  intros m Hm IH lo. rewrite (sumz_cons lo) by lia. rewrite (sumz_snoc (s - lo - (m + 1) + 1)) by lia.
  replace (m + 1 - 1) with m by lia. rewrite IH. replace (s - (lo + 1) - m + 1) with (s - lo - (m + 1) + 1) by lia.
  replace (s - lo - (m + 1) + 1 + (m + 1) - 1) with (s - lo) by lia. ring.
Qed.

(** Summands outside of the support do not matter. *)
Lemma sumz_extend lo n lo' n' f : lo' <= lo -> lo + n <= lo' + n' -> 0 <= n -> (forall k, ~ (lo <= k < lo + n) -> f k = 0%o) ->
  sumz lo n f = sumz lo' n' f.
Proof.
  intros H1 H2 H3 S. replace n' with ((lo - lo') + (n + (n' - n - (lo - lo')))) by lia.
  rewrite !sumz_app by lia. rewrite (sumz_zero lo') by (intros; apply S; lia). replace (lo' + (lo - lo')) with lo by lia.
  rewrite (sumz_zero (lo + n)) by (intros; apply S; lia). ring.
Qed.

Lemma sumz_support lo n lo' n' f : 0 <= n -> 0 <= n' ->
  (forall k, ~ (lo <= k < lo + n) -> f k = 0%o) -> (forall k, ~ (lo' <= k < lo' + n') -> f k = 0%o) -> sumz lo n f = sumz lo' n' f.
Proof.
  intros Hn Hn' S S'. set (l := Z.min lo lo'). set (m := Z.max (lo + n) (lo' + n') - l).
  transitivity (sumz l m f); [|symmetry]; apply sumz_extend; auto; lia.
Qed.

Lemma sumz_add lo n f g : sumz lo n (fun k => (f k + g k)%o) = (sumz lo n f + sumz lo n g)%o.
Proof. unfold sumz. induction (zseq lo n) as [|k l IH]; cbn; [ring|rewrite IH; ring]. Qed.

Lemma sumz_mul_l lo n a f : sumz lo n (fun k => (a * f k)%o) = (a * sumz lo n f)%o.
Proof. unfold sumz. induction (zseq lo n) as [|k l IH]; cbn; [ring|rewrite IH; ring]. Qed.

Lemma sumz_mul_r lo n a f : sumz lo n (fun k => (f k * a)%o) = (sumz lo n f * a)%o.
Proof. unfold sumz. induction (zseq lo n) as [|k l IH]; cbn; [ring|rewrite IH; ring]. Qed.

Lemma sumz_swap lo n lo' n' (f : Z -> Z -> A) :
  sumz lo n (fun k => sumz lo' n' (f k)) = sumz lo' n' (fun m => sumz lo n (fun k => f k m)).
Proof.
  destruct (Z_le_gt_dec 0 n) as [Hn|Hn].
  2:{ rewrite sumz_nil by lia. symmetry. apply sumz_zero. intros. apply sumz_nil. lia. }
  revert lo. pattern n. apply count_ind; [| |exact Hn].
  - intros. rewrite sumz_nil by lia. symmetry. apply sumz_zero. intros. apply sumz_nil. lia.
  - intros m Hm IH lo. rewrite sumz_cons by lia. replace (m + 1 - 1) with m by lia. rewrite IH, <- sumz_add. apply sumz_ext. intros k Hk.
    rewrite (sumz_cons lo (m + 1)) by lia. replace (m + 1 - 1) with m by lia. reflexivity.
Qed.

(** One summand only *)
Lemma sumz_single lo n j f : lo <= j < lo + n -> (forall k, lo <= k < lo + n -> k <> j -> f k = 0%o) -> sumz lo n f = f j.
Proof.
  intros H S. replace n with ((j - lo) + (1 + (n - 1 - (j - lo)))) by lia. rewrite !sumz_app by lia.
  rewrite (sumz_zero lo) by (intros; apply S; lia). replace (lo + (j - lo)) with j by lia. rewrite sumz_one.
  rewrite (sumz_zero (j + 1)) by (intros; apply S; lia). ring.
Qed.

(** Sums over a period *)
Lemma sumz_period n f lo : 0 < n -> (forall k, f (k + n) = f k) -> sumz lo n f = sumz 0 n f.
Proof.
  intros Hn P.
  assert (Step : forall l, sumz (l + 1) n f = sumz l n f).
  { intros l. rewrite (sumz_snoc (l + 1)), (sumz_cons l) by lia. replace (l + 1 + n - 1) with (l + n) by lia. rewrite P. ring. }
  assert (Up : forall d, 0 <= d -> forall l, sumz (l + d) n f = sumz l n f).
  { apply (count_ind (fun d => forall l, sumz (l + d) n f = sumz l n f)); [intros; f_equal; lia|]. intros d Hd IH l.
    rewrite Z.add_assoc, Step. apply IH. }
  destruct (Z_le_gt_dec 0 lo).
  - apply (Up lo ltac:(lia) 0).
  - rewrite <- (Up (- lo) ltac:(lia) lo). f_equal. lia.
Qed.

End Sum.
