(** Facts about one dimensional arrays. *)

From Coq Require Import ZArith List Bool Lia ZifyBool.
From Verif.Model Require Import Py Vector.
From Verif.Proofs Require Import PyFacts.
Import ListNotations.
Open Scope Z_scope.

Section V.
Context {A : Type}.
Implicit Types v : list A.

Lemma vector_ok (junk : Z -> A) n : 0 <= n -> exists v, vector junk n = Ok v /\ zlen v = n.
Proof. intros H. unfold vector. replace (n <? 0) with false by lia. eexists. split; [reflexivity|]. rewrite zlen_map, zlen_seq. lia. Qed.

Lemma vset_ok v b src l u : lower b (zlen v) = l -> upper b (zlen v) = u -> zlen src = u - l ->
  exists w, vset v b src = Ok w /\ zlen w = zlen v /\
    forall i, zth w i = if (l <=? i) && (i <? u) then zth src (i - l) else zth v i.
Proof.
  intros <- <- S. pose proof (zlen_nonneg v) as H.
  pose proof (lower_range b _ H). pose proof (upper_range b _ H). unfold vset.
  replace (zlen src =? _) with true by lia. eexists. split; [reflexivity|]. split.
  - rewrite !zlen_app, zlen_take, zlen_drop. lia.
  - intros i. rewrite !zth_app, zlen_take, zth_take, zth_drop. 
    zcases; try (f_equal; lia); try (symmetry; apply zth_out; lia); try (apply zth_out; lia).
    all: rewrite ?zth_out by lia; auto.
Qed.

Lemma vfill_ok v b x l u : lower b (zlen v) = l -> upper b (zlen v) = u ->
  zlen (vfill v b x) = zlen v /\
  forall i, zth (vfill v b x) i = if (l <=? i) && (i <? u) then Some x else zth v i.
Proof.
  intros <- <-. pose proof (zlen_nonneg v) as H.
  pose proof (lower_range b _ H). pose proof (upper_range b _ H).
  destruct (vset_ok v b (zrepeat x (upper b (zlen v) - lower b (zlen v))) _ _ eq_refl eq_refl) as (w & E & L & Z).
  { rewrite zlen_repeat. lia. }
  assert (W : w = vfill v b x).
  { unfold vset in E. rewrite zlen_repeat in E. replace (_ =? _) with true in E by lia. injection E as <-. reflexivity. }
  rewrite <- W. split; auto. intros i. rewrite Z. destruct (_ && _) eqn:I; auto. rewrite zth_repeat. replace (_ && _) with true by lia. reflexivity.
Qed.

Lemma vput_ok v i x : 0 <= i < zlen v ->
  exists w, vput v i x = Ok w /\ zlen w = zlen v /\ forall j, zth w j = if j =? i then Some x else zth v j.
Proof.
  intros I. unfold vput. replace (i <? 0) with false by lia. replace (_ || _) with false by lia.
  eexists. split; [reflexivity|]. split.
  - cbn [app]. rewrite zlen_app, zlen_take, zlen_cons, zlen_drop. lia.
  - intros j. cbn [app]. rewrite zth_app, zlen_take, zth_take, zth_cons, zth_drop.
    zcases; try (f_equal; lia); try (symmetry; apply zth_out; lia); try (apply zth_out; lia).
Qed.

Lemma vmap2_ok {B C} (f : A -> B -> C) v (w : list B) : zlen v = zlen w ->
  exists r, vmap2 f v w = Ok r /\ zlen r = zlen v /\
    forall i, zth r i = match zth v i, zth w i with Some x, Some y => Some (f x y) | _, _ => None end.
Proof.
  intros H. unfold vmap2. rewrite H, Z.eqb_refl. eexists. split; [reflexivity|]. split; [rewrite zlen_map2; lia|].
  intros i. apply zth_map2.
Qed.

(** ** The usual bounds *)

Lemma vset_between v a b src : 0 <= a <= b -> b <= zlen v -> zlen src = b - a ->
  exists w, vset v (between a b) src = Ok w /\ zlen w = zlen v /\
    forall i, zth w i = if (a <=? i) && (i <? b) then zth src (i - a) else zth v i.
Proof. intros. apply vset_ok; auto; [apply lower_between|apply upper_between]; lia. Qed.

Lemma vset_from v a src : 0 <= a <= zlen v -> zlen src = zlen v - a ->
  exists w, vset v (from a) src = Ok w /\ zlen w = zlen v /\
    forall i, zth w i = if (a <=? i) && (i <? zlen v) then zth src (i - a) else zth v i.
Proof. intros. apply vset_ok; auto; [apply lower_from|apply upper_from]; lia. Qed.

Lemma vset_everything v src : zlen src = zlen v -> vset v everything src = Ok src.
Proof.
  intros H. pose proof (zlen_nonneg v). unfold vset. rewrite lower_everything, upper_everything by lia. replace (_ =? _) with true by lia.
  f_equal. rewrite <- H. change (ztake 0 v) with (@nil A). cbn [app]. assert (D : zdrop (zlen src) v = []).
  { apply zlen_zero. rewrite zlen_drop. lia. } rewrite D. apply app_nil_r.
Qed.

Lemma vfill_between v a b x : 0 <= a <= b -> b <= zlen v ->
  zlen (vfill v (between a b) x) = zlen v /\
  forall i, zth (vfill v (between a b) x) i = if (a <=? i) && (i <? b) then Some x else zth v i.
Proof. intros. apply vfill_ok; [apply lower_between|apply upper_between]; lia. Qed.

Lemma vfill_from v a x : 0 <= a <= zlen v ->
  zlen (vfill v (from a) x) = zlen v /\
  forall i, zth (vfill v (from a) x) i = if (a <=? i) && (i <? zlen v) then Some x else zth v i.
Proof. intros. apply vfill_ok; [apply lower_from|apply upper_from]; lia. Qed.

Lemma vfill_everything v x : vfill v everything x = zrepeat x (zlen v).
Proof.
  pose proof (zlen_nonneg v). unfold vfill. rewrite lower_everything, upper_everything by lia. change (ztake 0 v) with (@nil A). cbn [app].
  assert (D : zdrop (zlen v) v = []). { apply zlen_zero. rewrite zlen_drop. lia. } rewrite D, app_nil_r, Z.sub_0_r. reflexivity.
Qed.

Lemma zlen_between v a b : 0 <= a <= b -> b <= zlen v -> zlen (subseq (between a b) v) = b - a.
Proof. intros. rewrite zlen_subseq, lower_between, upper_between by lia. lia. Qed.

Lemma zth_between v a b i : 0 <= a <= b -> b <= zlen v ->
  zth (subseq (between a b) v) i = if (0 <=? i) && (i <? b - a) then zth v (i + a) else None.
Proof. intros. rewrite zth_subseq, lower_between, upper_between by lia. reflexivity. Qed.

Lemma zlen_from v a : 0 <= a <= zlen v -> zlen (subseq (from a) v) = zlen v - a.
Proof. intros. rewrite zlen_subseq, lower_from, upper_from by lia. lia. Qed.

Lemma zth_from v a i : 0 <= a <= zlen v ->
  zth (subseq (from a) v) i = if (0 <=? i) && (i <? zlen v - a) then zth v (i + a) else None.
Proof. intros. rewrite zth_subseq, lower_from, upper_from by lia. reflexivity. Qed.

End V.

(** Tactics that step through assignments to parts of an array: [v_step w] names the result of the next one. *)
Ltac v_len := rewrite ?zlen_map, ?zlen_repeat; repeat first [rewrite zlen_between by v_lia | rewrite zlen_from by v_lia]; v_lia
with v_lia := lia.
Ltac v_step w L H :=
  match goal with
  | |- context [vset ?v (between ?a ?b) ?s] =>
      let E := fresh in destruct (vset_between v a b s) as (w & E & L & H); [try v_lia|try v_lia|try v_len|rewrite E; clear E; cbn [bind]]
  | |- context [vset ?v (from ?a) ?s] =>
      let E := fresh in destruct (vset_from v a s) as (w & E & L & H); [try v_lia|try v_len|rewrite E; clear E; cbn [bind]]
  end.
Ltac v_fill w L H :=
  match goal with
  | |- context [vfill ?v (between ?a ?b) ?x] =>
      destruct (vfill_between v a b x) as (L & H); [try v_lia|try v_lia|set (w := vfill v (between a b) x) in *; clearbody w]
  | |- context [vfill ?v (from ?a) ?x] =>
      destruct (vfill_from v a x) as (L & H); [try v_lia|set (w := vfill v (from a) x) in *; clearbody w]
  end.
