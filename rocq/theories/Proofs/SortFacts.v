(** Sorting of numbers and of pairs: Model/Tables.v. *)

From Coq Require Import ZArith QArith List Bool Lia Permutation Sorted.
From Verif.Model Require Import Py Tables.
Import ListNotations.
Open Scope list_scope.
Open Scope Z_scope.

Lemma Qle_bool_lt x y : Qle_bool x y = false -> (y < x)%Q.
Proof. intros H. apply Qnot_le_lt. intros L. apply Qle_bool_iff in L. congruence. Qed.
Lemma Qlt_le_bool x y : (y < x)%Q -> Qle_bool x y = false.
Proof. intros H. destruct (Qle_bool x y) eqn:E; auto. apply Qle_bool_iff in E. apply Qle_not_lt in E. tauto. Qed.

(** ** Numbers *)
Lemma insert_perm x l : Permutation (x :: l) (insert_number x l).
Proof.
  induction l as [|y t IH]; cbn; auto. destruct (Qle_bool x y); auto.
  rewrite perm_swap. now apply perm_skip.
Qed.
Lemma sort_perm l : Permutation l (sort_numbers l).
Proof. induction l as [|x t IH]; cbn; auto. rewrite IH at 1. apply insert_perm. Qed.

Lemma insert_sorted x l : StronglySorted Qle l -> StronglySorted Qle (insert_number x l).
Proof.
  induction 1 as [|y t S IH F]; cbn; [repeat constructor |].
  destruct (Qle_bool x y) eqn:E.
  - apply Qle_bool_iff in E. repeat constructor; auto. rewrite Forall_forall in *. intros z Z. apply F in Z. now apply Qle_trans with y.
  - apply Qle_bool_lt in E. constructor; auto. rewrite <- insert_perm. constructor; auto. now apply Qlt_le_weak.
Qed.
Lemma sort_sorted l : StronglySorted Qle (sort_numbers l).
Proof. induction l; cbn; [constructor | now apply insert_sorted]. Qed.

Lemma sort_identity l : StronglySorted Qle l -> sort_numbers l = l.
Proof.
  induction 1 as [|y t S IH F]; auto. change (sort_numbers (y :: t)) with (insert_number y (sort_numbers t)). rewrite IH. destruct t as [|z t]; cbn; auto.
  inversion F; subst. rewrite (proj2 (Qle_bool_iff y z)); auto.
Qed.

Lemma lt_le_sorted l : StronglySorted Qlt l -> StronglySorted Qle l.
Proof. induction 1; constructor; auto. eapply Forall_impl; [| eassumption]. intros. now apply Qlt_le_weak. Qed.

Lemma equal_numbers_refl l : equal_numbers l l = true.
Proof. induction l; cbn; auto. rewrite (proj2 (Qeq_bool_iff a a)); auto. reflexivity. Qed.

(** A sorted arrangement of numbers, that are pairwise different, is unique. *)
Lemma sort_unique l m : Permutation l m -> StronglySorted Qlt m -> sort_numbers l = m.
Proof.
  intros P S. assert (Q : Permutation (sort_numbers l) m) by (now rewrite <- sort_perm).
  pose proof (sort_sorted l) as T. clear P. revert m Q S. induction T as [|x t T IH F]; intros m Q S.
  - now apply Permutation_nil in Q.
  - destruct m as [|y m]; [now apply Permutation_sym, Permutation_nil in Q |].
    assert (x = y) as <-.
    { inversion S; subst. assert (X : In x (y :: m)) by (rewrite <- Q; now left). destruct X as [-> | X]; auto.
      assert (Y : In y (x :: t)) by (rewrite Q; now left). destruct Y as [-> | Y]; auto.
      rewrite Forall_forall in *. apply F in Y. apply H2 in X. apply Qle_not_lt in Y. tauto. }
    f_equal. apply IH; [now apply Permutation_cons_inv in Q | now inversion S].
Qed.

(** ** Pairs *)
Section Pairs.
Context {A : Type}.
Variable eqb : A -> A -> bool.
Variable less : A -> A -> result bool.

Definition before (p q : Q * A) : Prop := (fst p < fst q)%Q.

Lemma before_trans p q r : before p q -> before q r -> before p r.
Proof. unfold before. apply Qlt_trans. Qed.

Lemma pair_less_before p q : before p q -> pair_less eqb less p q = Ok true.
Proof.
  intros H. unfold pair_less, before in *. replace (Qeq_bool (fst p) (fst q)) with false.
  - now rewrite Qlt_le_bool.
  - symmetry. apply not_true_is_false. intros E. apply Qeq_bool_iff in E. rewrite E in H. now apply Qlt_irrefl in H.
Qed.
Lemma pair_less_after p q : before q p -> pair_less eqb less p q = Ok false.
Proof.
  intros H. unfold pair_less, before in *. replace (Qeq_bool (fst p) (fst q)) with false.
  - rewrite (proj2 (Qle_bool_iff _ _)); auto. now apply Qlt_le_weak.
  - symmetry. apply not_true_is_false. intros E. apply Qeq_bool_iff in E. rewrite E in H. now apply Qlt_irrefl in H.
Qed.

Lemma insert_before p l : Forall (before p) l -> insert_pair eqb less p l = Ok (p :: l).
Proof. destruct l as [|q t]; cbn; auto. inversion 1; subst. rewrite pair_less_after by auto. reflexivity. Qed.

Lemma insert_pair_ok p l : StronglySorted before l -> Forall (fun q => before p q \/ before q p) l ->
  exists r, insert_pair eqb less p l = Ok r /\ Permutation (p :: l) r /\ StronglySorted before r.
Proof.
  induction 1 as [|q t S IH F]; intros D.
  - exists [p]. repeat constructor.
  - inversion D; subst. destruct H1 as [H | H].
    + exists (p :: q :: t). assert (FF : Forall (before p) (q :: t)).
      { constructor; auto. eapply Forall_impl; [| exact F]. intros. now apply before_trans with q. }
      rewrite insert_before by auto. repeat split; auto. repeat constructor; auto; now inversion FF.
    + destruct (IH H2) as (r & E & P & SS). exists (q :: r). cbn. rewrite pair_less_before by auto. cbn. rewrite E. cbn.
      split; [reflexivity |]. split.
      * rewrite perm_swap. now apply perm_skip.
      * constructor; auto. rewrite <- P. constructor; auto.
Qed.

(** Pairs with different numbers have a sorted arrangement, which [sorted] finds. *)
Lemma sort_pairs_ok l m : Permutation l m -> StronglySorted before m -> sort_pairs eqb less l = Ok m.
Proof.
  intros P S.
  assert (D : forall k, NoDup l -> (forall p q, In p l -> In q l -> p <> q -> before p q \/ before q p) -> l = k ->
     exists r, sort_pairs eqb less k = Ok r /\ Permutation k r /\ StronglySorted before r).
  { clear. intros k ND H ->. induction k as [|p t IH]; cbn.
    - exists []. repeat constructor.
    - inversion ND; subst. destruct IH as (r & E & P & S); auto. { intros; apply H; auto; now right. }
      rewrite E. cbn. destruct (insert_pair_ok p r S) as (r' & E' & P' & S').
      + rewrite <- P. apply Forall_forall. intros q Q. apply H; [now left | now right |]. intros ->. contradiction.
      + exists r'. rewrite E'. split; auto. split; auto. now rewrite P. }
  assert (O : forall p q, In p m -> In q m -> p <> q -> before p q \/ before q p).
  { clear -S. induction S as [|x t S IH F]; cbn; [tauto |]. rewrite Forall_forall in F. intros p q [-> | P] [-> | Q] N; auto. congruence. }
  assert (ND : NoDup m).
  { clear -S. induction S as [|x t S IH F]; constructor; auto. intros I. rewrite Forall_forall in F. apply F in I.
    unfold before in I. now apply Qlt_irrefl in I. }
  destruct (D l) as (r & E & P' & S'); auto.
  - eapply Permutation_NoDup; [symmetry |]; eauto.
  - intros p q Ip Iq. apply O; eapply Permutation_in; eauto.
  - rewrite E. f_equal. assert (Q : Permutation r m) by (now rewrite <- P'). clear -Q S S'.
    revert m Q S. induction S' as [|x t T IH F]; intros m Q S.
    + now apply Permutation_nil in Q.
    + destruct m as [|y m]; [now apply Permutation_sym, Permutation_nil in Q |].
      assert (x = y) as <-.
      { inversion S; subst. assert (X : In x (y :: m)) by (rewrite <- Q; now left). destruct X as [-> | X]; auto.
        assert (Y : In y (x :: t)) by (rewrite Q; now left). destruct Y as [-> | Y]; auto.
        rewrite Forall_forall in *. apply F in Y. apply H2 in X. pose proof (before_trans _ _ _ X Y) as C. unfold before in C. now apply Qlt_irrefl in C. }
      f_equal. apply IH; [now apply Permutation_cons_inv in Q | now inversion S].
Qed.

Lemma sorted_map_fst (l : list (Q * A)) : StronglySorted Qlt (map fst l) <-> StronglySorted before l.
Proof.
  induction l as [|p t IH]; cbn; [split; constructor |].
  split; intros H; inversion H; subst; constructor; try (now apply IH).
  - rewrite Forall_map in H3. exact H3.
  - rewrite Forall_map. exact H3.
Qed.

(** If the numbers of two arrangements of the same pairs are equal, the arrangements are equal. *)
Lemma equal_arrangement (l m : list (Q * A)) : Permutation l m -> StronglySorted before m ->
  equal_numbers (map fst l) (map fst m) = true -> l = m.
Proof.
  intros P S E.
  assert (O : forall p q, In p m -> In q m -> fst p == fst q -> p = q).
  { clear -S. induction S as [|x t S IH F]; cbn; [tauto |]. rewrite Forall_forall in F. intros p q [-> | P] [-> | Q] N; auto.
    - apply F in Q. unfold before in Q. rewrite N in Q. now apply Qlt_irrefl in Q.
    - apply F in P. unfold before in P. rewrite N in P. now apply Qlt_irrefl in P. }
  assert (G : forall k k', (forall p, In p k -> In p m) -> (forall p, In p k' -> In p m) -> equal_numbers (map fst k) (map fst k') = true -> k = k').
  { clear -O. induction k as [|p k IH]; intros [|q k'] I I' E; cbn in E; auto; try discriminate.
    apply andb_true_iff in E as [E1 E2]. apply Qeq_bool_iff in E1. f_equal.
    - apply O; auto; [apply I | apply I']; now left.
    - apply IH; auto; intros; [apply I | apply I']; now right. }
  apply G; auto. intros p H. eapply Permutation_in; eauto.
Qed.
End Pairs.
