(** The contents of a Merge instance after any history of calls. *)

From Coq Require Import ZArith List Bool Lia ZifyBool.
From Verif.Model Require Import Py Numpy Signal Spectrum Merge.
From Verif.Spec Require Import MergeSpec.
From Verif.Proofs Require Import PyFacts.
Import ListNotations.
Open Scope Z_scope.

Section History.
Context {D : Type}.
Implicit Types (m : multi D) (h : list (call D)).

(** What a history leaves of the data sets that are present before it. *)
Fixpoint kept (m : multi D) (h : list (call D)) : list D :=
  match m with
  | [] => []
  | (i, d) :: t => if existsb (removes i) h then kept t h else latest i d h :: kept t h
  end.

Lemma kept_app m m' h : kept (m ++ m') h = kept m h ++ kept m' h.
Proof. induction m as [|[i d] m IH]; cbn; auto. destruct (existsb _ h); rewrite IH; reflexivity. Qed.

Lemma kept_other m c h : (forall i, In i (multi_ids m) -> removes i c = false /\ forall d, latest i d (c :: h) = latest i d h) ->
  kept m (c :: h) = kept m h.
Proof.
  induction m as [|[i d] m IH]; intros H; auto.
  destruct (H i (or_introl eq_refl)) as [H1 H2].
  change (kept ((i, d) :: m) (c :: h)) with (if removes i c || existsb (removes i) h then kept m (c :: h) else latest i d (c :: h) :: kept m (c :: h)).
  rewrite H1, H2, IH by (intros; apply H; cbn; auto). reflexivity.
Qed.

Lemma kept_remove m i h m' : NoDup (multi_ids m) -> multi_remove m i = Ok m' ->
  kept m (Remove i :: h) = kept m' h.
Proof.
  revert m'. induction m as [|[k d] m IH]; intros m' ND E; [discriminate|].
  cbn [multi_remove] in E. unfold multi_ids in ND. cbn [map fst] in ND. inversion ND as [|? ? N1 N2]; subst.
  change (kept ((k, d) :: m) (Remove i :: h)) with
    (if (i =? k) || existsb (removes k) h then kept m (Remove i :: h) else latest k d h :: kept m (Remove i :: h)).
  destruct (Z.eqb_spec k i) as [->|NE].
  - injection E as <-. rewrite Z.eqb_refl. cbn [orb]. apply kept_other.
    intros j J. cbn. split; auto. apply Z.eqb_neq. intros ->. contradiction.
  - destruct (multi_remove m i) as [r|] eqn:E'; [|discriminate]. cbn in E. injection E as <-.
    replace (i =? k) with false by lia. cbn [orb kept]. rewrite (IH r) by auto. reflexivity.
Qed.

Lemma kept_replace m i x h : NoDup (multi_ids m) -> In i (multi_ids m) ->
  kept m (Replace i x :: h) = kept (multi_replace m i x) h.
Proof.
  induction m as [|[k d] m IH]; intros ND I; [destruct I|].
  unfold multi_ids in ND, I. cbn [map fst] in ND, I. inversion ND as [|? ? N1 N2]; subst.
  change (kept ((k, d) :: m) (Replace i x :: h)) with
    (if existsb (removes k) h then kept m (Replace i x :: h) else latest k (if i =? k then x else d) h :: kept m (Replace i x :: h)).
  cbn [multi_replace]. destruct (Z.eqb_spec k i) as [->|NE].
  - rewrite Z.eqb_refl. rewrite kept_other; [reflexivity|].
    intros j J. cbn. split; auto. intros e. replace (i =? j) with false; auto. symmetry. apply Z.eqb_neq. intros ->. contradiction.
  - replace (i =? k) with false by lia. cbn [kept]. destruct I as [->|I]; [contradiction|].
    rewrite IH by auto. reflexivity.
Qed.

Lemma remove_present m i : In i (multi_ids m) -> exists m', multi_remove m i = Ok m' /\
  forall l, (forall k, In k (multi_ids m) <-> In k l) -> NoDup (multi_ids m) ->
    NoDup (multi_ids m') /\ forall k, In k (multi_ids m') <-> In k (remove Z.eq_dec i l).
Proof.
  intros I.
  enough (exists m', multi_remove m i = Ok m' /\
     (NoDup (multi_ids m) -> NoDup (multi_ids m') /\ forall k, In k (multi_ids m') <-> In k (multi_ids m) /\ k <> i)) as (m' & E & H).
  { exists m'. split; auto. intros l L ND. destruct (H ND) as [H1 H2]. split; auto. intros k. rewrite H2, L. split.
    - intros [K N]. apply in_in_remove; auto.
    - intros K. apply in_remove in K. tauto. }
  induction m as [|[k d] m IH]; [destruct I|]. unfold multi_ids in *. cbn [map fst multi_remove] in *.
  destruct (Z.eqb_spec k i) as [->|NE].
  - exists m. split; auto. intros ND. inversion ND; subst. split; auto. intros k. cbn. split.
    + intros K. split; auto. intros ->. contradiction.
    + intros [[->|K] N]; auto. contradiction.
  - destruct I as [->|I]; [contradiction|]. destruct (IH I) as (m' & -> & H). cbn [bind]. eexists; split; [reflexivity|].
    intros ND. inversion ND as [|? ? N1 N2]; subst. destruct (H N2) as [H1 H2]. cbn [map fst]. split.
    + constructor; auto. rewrite H2. tauto.
    + intros j. cbn. rewrite H2. split; [intros [->|[]]; auto|]. intros [[->|K] N]; auto.
Qed.

Lemma replace_ids m i x : In i (multi_ids m) -> multi_ids (multi_replace m i x) = multi_ids m.
Proof.
  induction m as [|[k d] m IH]; intros I; [destruct I|]. unfold multi_ids in *. cbn [map fst multi_replace] in *.
  destruct (Z.eqb_spec k i) as [->|NE]; cbn [map fst]; auto. f_equal. apply IH. destruct I; [contradiction|auto].
Qed.

Lemma run_ok h : forall (s : merger D) present,
  NoDup (multi_ids (mg_data s)) -> (forall k, In k (multi_ids (mg_data s)) <-> In k present) -> sensible present h ->
  multi_values (mg_data (run s h)) = kept (mg_data s) h ++ remaining h /\
  mg_mode (run s h) = latest_mode (mg_mode s) h /\
  NoDup (multi_ids (mg_data (run s h))).
Proof.
  induction h as [|c h IH]; intros s present ND P S.
  - cbn [run remaining latest_mode]. rewrite app_nil_r. split; [|auto]. clear.
    induction (mg_data s) as [|[i d] m IH]; cbn; auto. f_equal. exact IH.
  - destruct c as [i d|i|i d|mode]; cbn [sensible] in S; cbn [run perform].
    + destruct S as [NI S]. destruct (IH (Merger (multi_add (mg_data s) i d) (mg_mode s)) (i :: present)) as (H1 & H2 & H3); auto.
      * cbn [mg_data]. unfold multi_add, multi_ids. rewrite map_app. cbn [map fst].
        apply (NoDup_Add (a := i) (l := multi_ids (mg_data s))); [|split; auto; rewrite P; auto].
        rewrite <- (app_nil_r (multi_ids (mg_data s))) at 1. apply Add_app.
      * cbn [mg_data]. intros k. unfold multi_add, multi_ids. rewrite map_app, in_app_iff. fold (multi_ids (mg_data s)).
        rewrite P. cbn. tauto.
      * rewrite H1, H2. cbn [mg_data mg_mode latest_mode]. split; [|auto].
        unfold multi_add. rewrite kept_app, <- app_assoc. rewrite (kept_other (mg_data s) (Add i d)) by auto.
        f_equal. cbn [kept remaining]. destruct (existsb (removes i) h); reflexivity.
    + destruct S as [I S]. rewrite <- P in I. destruct (remove_present (mg_data s) i I) as (m' & E & H). rewrite E. cbn [bind].
      destruct (H present P ND) as [N' P'].
      destruct (IH (Merger m' (mg_mode s)) (remove Z.eq_dec i present)) as (H1 & H2 & H3); auto.
      rewrite H1, H2. cbn [mg_data mg_mode latest_mode remaining]. split; [|auto]. f_equal. symmetry. apply kept_remove; auto.
    + destruct S as [I S]. rewrite <- P in I.
      destruct (IH (Merger (multi_replace (mg_data s) i d) (mg_mode s)) present) as (H1 & H2 & H3); auto.
      * cbn [mg_data]. rewrite replace_ids; auto.
      * cbn [mg_data]. intros k. rewrite replace_ids; auto.
      * rewrite H1, H2. cbn [mg_data mg_mode latest_mode remaining]. split; [|auto]. f_equal. symmetry. apply kept_replace; auto.
    + destruct (IH (Merger (mg_data s) mode) present) as (H1 & H2 & H3); auto.
      rewrite H1, H2. cbn [mg_data mg_mode latest_mode remaining]. split; [|auto]. f_equal. symmetry. apply kept_other. auto.
Qed.

Theorem history mode h : sensible [] h ->
  multi_values (mg_data (run (Merger [] mode) h)) = remaining h /\ mg_mode (run (Merger [] mode) h) = latest_mode mode h.
Proof.
  intros S. destruct (run_ok h (Merger [] mode) []) as (H1 & H2 & _); auto.
  - constructor.
  - reflexivity.
Qed.

(** Unknown identifiers. *)
Lemma remove_unknown (s : merger D) i : ~ In i (multi_ids (mg_data s)) -> perform s (Remove i) = Err KeyError.
Proof.
  intros N. cbn. replace (multi_remove (mg_data s) i) with (@Err (multi D) KeyError); auto.
  unfold multi_ids in N. induction (mg_data s) as [|[k d] m IH]; auto. cbn [map fst multi_remove] in *.
  destruct (Z.eqb_spec k i) as [->|]; [exfalso; cbn in N; tauto|]. rewrite <- IH; auto. cbn in N. tauto.
Qed.

End History.
