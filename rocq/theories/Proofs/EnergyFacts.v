(** Proofs about energy decay curves of real signals. *)

From Coq Require Import Reals Lra String ZArith List Bool Lia ZifyBool.
From Verif.Model Require Import Py Numpy Signal Generators.
From Verif.Spec Require Import TimeSpec ConcatSpec GeneratorsSpec RealSpec.
From Verif.Proofs Require Import PyFacts SequenceFacts.
Import ListNotations.
Open Scope list_scope.


Section RealEnergy.
Open Scope R_scope.
Variables (power modulo : R -> R -> R).
Notation O := (real_ops power modulo).

Lemma real_addition : exact_addition O.
Proof. repeat split; intros; cbn; ring. Qed.

Lemma energy_nonneg l : 0 <= energy O l.
Proof. induction l as [|x l IH]; cbn; [lra|]. pose proof (Rle_0_sqr x) as H. unfold Rsqr in H. lra. Qed.

Lemma energy_skipn l : forall k, energy O (skipn k l) <= energy O l.
Proof.
  induction l as [|x l IH]; intros k; [destruct k; cbn; lra|]. destruct k; [cbn; lra|]. cbn [skipn energy]. specialize (IH k).
  cbn [o_add o_mul real_ops] in *. pose proof (Rle_0_sqr x) as H. unfold Rsqr in H. lra.
Qed.

Lemma skipn_add {A} (i : nat) : forall (l : list A) j, skipn j (skipn i l) = skipn (i + j) l.
Proof. induction i as [|i IH]; intros l j; [reflexivity|]. destruct l; [destruct j; reflexivity|]. cbn. apply IH. Qed.

Lemma energy_drop l i j : (0 <= i <= j)%Z -> energy O (zdrop j l) <= energy O (zdrop i l).
Proof.
  intros H. unfold zdrop. replace (Z.to_nat j) with (Z.to_nat i + Z.to_nat (j - i))%nat by lia. rewrite <- skipn_add. apply energy_skipn.
Qed.

Lemma energy_decreasing s c t u x y : wf_signal s -> (t <= u)%Z ->
  at_time (energy_decay O s) c t = Some x -> at_time (energy_decay O s) c u = Some y -> 0 <= y <= x.
Proof.
  intros W T X Y. destruct (energy_decay_ok O real_addition s W) as (_ & _ & _ & _ & _ & _ & H). rewrite H in X, Y.
  destruct (zth (rows (channels s)) c); [|discriminate]. destruct (_ && _)%bool eqn:B in X; [|discriminate].
  destruct (_ && _)%bool eqn:B' in Y; [|discriminate]. injection X as <-. injection Y as <-. split; [apply energy_nonneg|].
  apply energy_drop. lia.
Qed.
End RealEnergy.
