(** Dictionaries of frequencies, sorting them, and the constructor of the bands filter. *)

From Coq Require Import String ZArith List Bool Lia Permutation Sorted.
From Verif.Model Require Import Py Functions Signal Terms Filter Bands.
From Verif.Spec Require Import BandsSpec.
From Verif.Proofs Require Import PyFacts SignalHelpers TableFacts.
Import ListNotations.
Open Scope Z_scope.

Section BandsClass.
Context {K X : Type}.
Variable A : arithmetic K X.
Hypothesis OA : ordered A.

Lemma x_eqb_refl x : x_eqb A x x = true.
Proof. now apply (same_frequency A OA). Qed.

Lemma x_eqb_dec (x y : X) : {x = y} + {x <> y}.
Proof. destruct (x_eqb A x y) eqn:E; [left|right]; [now apply (same_frequency A OA)|intros ->; now rewrite x_eqb_refl in E]. Qed.

Lemma x_eqb_neq x y : x <> y -> x_eqb A x y = false.
Proof. intros N. destruct (x_eqb A x y) eqn:E; auto. now apply (same_frequency A OA) in E. Qed.

Lemma dict_get_set {V} (d : list (X * V)) x v y : dict_get A (dict_set A d x v) y = if x_eqb A x y then Some v else dict_get A d y.
Proof.
  induction d as [|[z w] d IH]; cbn; auto. destruct (x_eqb_dec z x) as [->|N].
  - rewrite x_eqb_refl; cbn. now destruct (x_eqb A x y).
  - rewrite (x_eqb_neq z x N); cbn. destruct (x_eqb_dec z y) as [->|N2].
    + rewrite x_eqb_refl. now rewrite (x_eqb_neq x y) by congruence.
    + now rewrite (x_eqb_neq z y N2).
Qed.

Lemma dict_set_keys {V} (d : list (X * V)) x v y : In y (map fst (dict_set A d x v)) <-> y = x \/ In y (map fst d).
Proof.
  induction d as [|[z w] d IH]; cbn; [intuition congruence|]. destruct (x_eqb_dec z x) as [->|N].
  - rewrite x_eqb_refl; cbn. intuition congruence.
  - rewrite (x_eqb_neq z x N); cbn. rewrite IH. intuition congruence.
Qed.

Lemma dict_set_dictionary {V} (d : list (X * V)) x v : dictionary d -> dictionary (dict_set A d x v).
Proof.
  unfold dictionary. induction d as [|[z w] d IH]; cbn; intros N; [constructor; auto; constructor|].
  inversion N as [|? ? N1 N2]; subst. destruct (x_eqb_dec z x) as [->|E].
  - rewrite x_eqb_refl; cbn. now constructor.
  - rewrite (x_eqb_neq z x E); cbn. constructor; auto. rewrite dict_set_keys. intuition congruence.
Qed.

Lemma dict_get_keys {V} (d : list (X * V)) x : In x (map fst d) <-> exists v, dict_get A d x = Some v.
Proof.
  induction d as [|[z w] d IH]; cbn; [split; [tauto|intros (v & E); discriminate]|].
  destruct (x_eqb_dec z x) as [->|E].
  - rewrite x_eqb_refl. split; eauto.
  - rewrite (x_eqb_neq z x E), <- IH. intuition congruence.
Qed.

Lemma dict_get_in {V} (d : list (X * V)) x v : dictionary d -> (dict_get A d x = Some v <-> In (x, v) d).
Proof.
  unfold dictionary. induction d as [|[z w] d IH]; cbn; intros N; [split; [discriminate|tauto]|].
  inversion N as [|? ? N1 N2]; subst. destruct (x_eqb_dec z x) as [->|E].
  - rewrite x_eqb_refl. split; [intros [= ->]; auto|]. intros [[= ->]|H]; auto.
    elim N1. apply in_map_iff. now exists (x, v).
  - rewrite (x_eqb_neq z x E), IH by auto. intuition congruence.
Qed.

Lemma dict_get_ext {V} (d e : list (X * V)) : dictionary d -> dictionary e -> (forall x, dict_get A d x = dict_get A e x) ->
  forall x v, In (x, v) d <-> In (x, v) e.
Proof. intros D E H x v. now rewrite <- !dict_get_in, H. Qed.

(** ** Sorting *)

Definition before {V} (p q : X * V) : Prop := x_ltb A (fst p) (fst q) = true.

Lemma insert_perm {V} (p : X * V) d : Permutation (insert A p d) (p :: d).
Proof. induction d as [|q d IH]; cbn; auto. destruct (x_ltb A (fst p) (fst q)); auto. rewrite IH. apply perm_swap. Qed.

Lemma sorted_perm {V} (d : list (X * V)) : Permutation (sorted A d) d.
Proof. induction d as [|p d IH]; cbn; auto. rewrite insert_perm. now apply perm_skip. Qed.

Lemma insert_sorted {V} (p : X * V) d : ~ In (fst p) (map fst d) -> StronglySorted before d -> StronglySorted before (insert A p d).
Proof.
  induction d as [|q d IH]; cbn; intros N S; [constructor; auto; constructor|].
  inversion S as [|? ? S1 S2]; subst. destruct (x_ltb A (fst p) (fst q)) eqn:E.
  - constructor; [now constructor|]. constructor; auto. rewrite Forall_forall in *. intros r Hr.
    eapply (less_than_trans A OA); [exact E|]. now apply S2.
  - constructor; [apply IH; intuition|]. rewrite Forall_forall in *. intros r Hr.
    apply (Permutation_in _ (insert_perm p d)) in Hr. destruct Hr as [<-|Hr]; auto.
    unfold before. destruct (less_or_greater A OA (fst q) (fst p)) as [H|[H|H]]; auto; try congruence; elim N; now left.
Qed.

Lemma dictionary_perm {V} (d e : list (X * V)) : Permutation d e -> dictionary d -> dictionary e.
Proof. intros P. unfold dictionary. apply Permutation_NoDup. now apply Permutation_map. Qed.

Lemma sorted_sorted {V} (d : list (X * V)) : dictionary d -> StronglySorted before (sorted A d).
Proof.
  induction d as [|p d IH]; cbn; intros D; [constructor|]. inversion D as [|? ? D1 D2]; subst. apply insert_sorted; auto.
  intros H. apply D1. eapply Permutation_in; [|exact H]. apply Permutation_map, sorted_perm.
Qed.

Lemma sorted_unique {V} (d : list (X * V)) : forall e, StronglySorted before d -> StronglySorted before e ->
  (forall p, In p d <-> In p e) -> d = e.
Proof.
  induction d as [|p d IH]; intros e S T H.
  - destruct e as [|q e]; auto. destruct (proj2 (H q)); now left.
  - destruct e as [|q e]; [destruct (proj1 (H p)); now left|].
    inversion S as [|? ? S1 S2]; inversion T as [|? ? T1 T2]; subst. rewrite Forall_forall in S2, T2.
    assert (Nr : forall r : X * V, before r r -> False) by (intros r; unfold before; rewrite (never_less_than_itself A OA); discriminate).
    assert (Na : forall r s : X * V, before r s -> before s r -> False).
    { intros r s. intros H1 H2. apply (Nr r). unfold before in *. eapply (less_than_trans A OA); eauto. }
    assert (E : p = q).
    { destruct (proj1 (H p) (or_introl eq_refl)) as [|Hp]; auto. destruct (proj2 (H q) (or_introl eq_refl)) as [|Hq]; auto.
      elim (Na p q); auto. }
    subst q. f_equal. apply IH; auto. intros r. split; intros Hr.
    + destruct (proj1 (H r) (or_intror Hr)) as [->|]; auto. elim (Nr r). auto.
    + destruct (proj2 (H r) (or_intror Hr)) as [->|]; auto. elim (Nr r). auto.
Qed.

Lemma sorted_ascending {V} (d : list (X * V)) : StronglySorted before d -> ascending A (map fst d).
Proof.
  induction 1 as [|p d S IH F]; intros i j x y Hi Hj L; cbn [map] in Hi, Hj; [now rewrite zth_nil in Hi|].
  rewrite zth_cons in Hi, Hj. pose proof (zth_range (fst p :: map fst d) j y) as R. rewrite zth_cons in R. specialize (R Hj). rewrite zlen_cons in R.
  destruct (Z.eqb_spec j 0); destruct (Z.eqb_spec i 0).
  - lia.
  - apply zth_range in Hi. lia.
  - injection Hi as <-. rewrite Forall_forall in F. apply zth_In in Hj. apply in_map_iff in Hj. destruct Hj as (q & <- & Hq). now apply F.
  - now apply (IH (i - 1) (j - 1)); auto; lia.
Qed.

Lemma ascending_sorted {V} (d : list (X * V)) : ascending A (map fst d) -> StronglySorted before d.
Proof.
  induction d as [|p d IH]; intros H; [constructor|]. constructor.
  - apply IH. intros i j x y Hi Hj L. pose proof (zth_range _ _ _ Hi). pose proof (zth_range _ _ _ Hj).
    apply (H (i + 1) (j + 1)); try lia; cbn [map]; rewrite zth_cons.
    + destruct (Z.eqb_spec (i + 1) 0); [lia|]. now replace (i + 1 - 1) with i by lia.
    + destruct (Z.eqb_spec (j + 1) 0); [lia|]. now replace (j + 1 - 1) with j by lia.
  - rewrite Forall_forall. intros q Hq. apply In_nth_error in Hq. destruct Hq as (n & Hn).
    unfold before. apply (H 0 (Z.of_nat n + 1)); [reflexivity| |lia].
    cbn [map]. rewrite zth_cons. destruct (Z.eqb_spec (Z.of_nat n + 1) 0); [lia|].
    replace (Z.of_nat n + 1 - 1) with (Z.of_nat n) by lia. unfold zth. destruct (Z.ltb_spec (Z.of_nat n) 0); [lia|].
    rewrite Nat2Z.id, nth_error_map, Hn. reflexivity.
Qed.

Lemma combine_fst {V} (xs : list X) (ys : list V) : zlen ys = zlen xs -> map fst (combine xs ys) = xs.
Proof.
  revert ys. induction xs as [|x xs IH]; intros [|y ys] L; auto; unfold zlen in L; cbn in L; try lia.
  cbn. f_equal. apply IH. unfold zlen. lia.
Qed.

Lemma combine_snd {V} (xs : list X) (ys : list V) : zlen ys = zlen xs -> map snd (combine xs ys) = ys.
Proof.
  revert ys. induction xs as [|x xs IH]; intros [|y ys] L; auto; unfold zlen in L; cbn in L; try lia.
  cbn. f_equal. apply IH. unfold zlen. lia.
Qed.

Lemma combine_split_pairs {V} (d : list (X * V)) : combine (map fst d) (map snd d) = d.
Proof. induction d as [|[x v] d IH]; cbn; congruence. Qed.

Lemma ascending_nodup (xs : list X) : ascending A xs -> NoDup xs.
Proof.
  intros H. rewrite <- (combine_fst xs xs) by reflexivity. rewrite <- (combine_fst xs xs) in H by reflexivity.
  apply ascending_sorted in H. induction H as [|p d S IH F]; cbn; constructor; auto.
  intros H. apply in_map_iff in H. destruct H as (q & E & Hq). rewrite Forall_forall in F. specialize (F q Hq). unfold before in F.
  rewrite E, (never_less_than_itself A OA) in F. discriminate.
Qed.

(** The lists of supporting points are determined by the supporting points. *)
Lemma ascending_unique {V} (xs xs' : list X) (ys ys' : list V) : ascending A xs -> ascending A xs' -> zlen ys = zlen xs -> zlen ys' = zlen xs' ->
  (forall x y, In (x, y) (combine xs ys) <-> In (x, y) (combine xs' ys')) -> xs = xs' /\ ys = ys'.
Proof.
  intros H H' L L' E. assert (C : combine xs ys = combine xs' ys').
  { apply sorted_unique; [apply ascending_sorted; now rewrite combine_fst..|]. intros [x y]. apply E. }
  split; [rewrite <- (combine_fst xs ys), C, combine_fst|rewrite <- (combine_snd xs ys), C, combine_snd]; auto.
Qed.

Lemma supported_unique (d : list (X * K)) i e t t' : supported A d i e t -> supported A d i e t' -> t = t'.
Proof.
  intros (xs & ys & -> & H & L & E) (xs' & ys' & -> & H' & L' & E').
  destruct (ascending_unique xs xs' ys ys') as (-> & ->); auto. intros x y. now rewrite E, E'.
Qed.

(** ** The constructor *)

Lemma bands_term_ok (d : list (X * K)) i e : dictionary d -> exists t, bands_term A d i e = Ok t /\ supported A d i (extrapolated e) t.
Proof.
  intros D. unfold bands_term. pose proof (sorted_sorted d D) as S. pose proof (sorted_perm d) as P.
  assert (E : sequence (map (dict_item A d) (map fst (sorted A d))) = Ok (map snd (sorted A d))).
  { rewrite map_map. apply sequence_map_ok. intros [x y] H. unfold dict_item. cbn.
    apply (Permutation_in _ P) in H. apply dict_get_in in H; auto. now rewrite H. }
  rewrite E. cbn [bind]. eexists. split; [reflexivity|]. exists (map fst (sorted A d)), (map snd (sorted A d)).
  split; [unfold bands_factory; now destruct e|]. split; [now apply sorted_ascending|]. split; [now rewrite !zlen_map|].
  intros x y. rewrite combine_split_pairs. split; apply Permutation_in; auto using Permutation_sym.
Qed.

Lemma extended_flags_ok f n : n <= 0 \/ some_flag f -> exists l, extended_flags f n = Ok l /\ n <= zlen l /\
  forall c, 0 <= c < n -> exists i, zth l c = Some i /\ flag_of f c i.
Proof.
  intros H. destruct f as [i|l]; cbn.
  - exists (zrepeat i n). split; auto. rewrite zlen_repeat. split; [lia|]. intros c Hc. exists i. split; auto.
    rewrite zth_repeat. now rewrite (proj2 (Z.leb_le 0 c)), (proj2 (Z.ltb_lt c n)) by lia.
  - pose proof (zlen_nonneg l). destruct (Z.ltb_spec (zlen l) n).
    + destruct H as [|N]; [lia|]. cbn in N. destruct (rev l) as [|i r] eqn:E.
      { apply (f_equal (@rev _)) in E. rewrite rev_involutive in E. now elim N. }
      assert (Hl : l = rev r ++ [i]) by (rewrite <- (rev_involutive l), E; reflexivity).
      assert (Z1 : zlen l = zlen r + 1) by (rewrite Hl, zlen_app, zlen_rev; reflexivity). pose proof (zlen_nonneg r).
      eexists. split; [reflexivity|]. rewrite zlen_app, zlen_repeat. split; [lia|]. intros c Hc.
      rewrite zth_app. destruct (Z.ltb_spec c (zlen l)).
      * destruct (zth_in l c) as (j & Hj); [lia|]. exists j. split; auto. now rewrite Z.min_l by lia.
      * exists i. rewrite zth_repeat, (proj2 (Z.leb_le 0 _)), (proj2 (Z.ltb_lt (c - zlen l) (n - zlen l))) by lia. split; auto.
        rewrite Z.min_r by lia. rewrite Hl at 1. rewrite zth_app, zlen_rev.
        destruct (Z.ltb_spec (zlen l - 1) (zlen r)); [lia|]. now replace (zlen l - 1 - zlen r) with 0 by lia.
    + exists l. split; auto. split; [lia|]. intros c Hc. destruct (zth_in l c) as (j & Hj); [lia|]. exists j. split; auto.
      now rewrite Z.min_l by lia.
Qed.

Lemma extended_labels_ok labels n : n <= zlen (extended_labels labels n) /\
  forall c, 0 <= c < n -> exists l, zth (extended_labels labels n) c = Some l /\ label_of labels c l.
Proof.
  unfold extended_labels. pose proof (zlen_nonneg labels). destruct (Z.ltb_spec (zlen labels) n).
  - rewrite zlen_app, zlen_repeat. split; [lia|]. intros c Hc. rewrite zth_app. destruct (Z.ltb_spec c (zlen labels)).
    + destruct (zth_in labels c) as (l & Hl); [lia|]. exists l. split; auto. now left.
    + eexists. rewrite zth_repeat, (proj2 (Z.leb_le 0 _)), (proj2 (Z.ltb_lt (c - zlen labels) (n - zlen labels))) by lia. split; [reflexivity|].
      right. split; auto. destruct labels as [|l labels]; [now right|now left].
  - split; auto. intros c Hc. destruct (zth_in labels c) as (l & Hl); [lia|]. exists l. split; auto. now left.
Qed.

Lemma sanitize_enough labels n : 0 <= n <= zlen labels -> forall c, 0 <= c < n -> zth (sanitize_labels (Some labels) n) c = zth labels c.
Proof.
  intros H c Hc. destruct (sanitize_labels_ok (Some labels) n) as (_ & S); [lia|]. rewrite S by auto.
  destruct (zth_in labels c) as (l & Hl); [lia|]. now rewrite Hl.
Qed.

Lemma zth_combine {U V} (l : list U) (m : list V) c u v : zth l c = Some u -> zth m c = Some v -> zth (combine l m) c = Some (u, v).
Proof.
  revert m c. induction l as [|a l IH]; intros [|w m] c; rewrite ?zth_nil; try discriminate. cbn [combine]. rewrite !zth_cons.
  destruct (c =? 0); [congruence|]. apply IH.
Qed.

Lemma mk_bands_ok b i e labels : Forall dictionary b -> zlen b = 0 \/ some_flag i /\ some_flag e ->
  exists B, mk_bands A b i e labels = Ok B /\ made A b i e labels B.
Proof.
  intros D H. pose proof (zlen_nonneg b) as N. unfold mk_bands, dict.
  destruct (extended_flags_ok i (zlen b)) as (il & -> & Li & Hi); [intuition lia|].
  destruct (extended_flags_ok e (zlen b)) as (el & -> & Le & He); [intuition lia|]. cbn [bind].
  destruct (extended_labels_ok labels (zlen b)) as (Ll & Hl). set (ls := extended_labels labels (zlen b)) in *. clearbody ls.
  set (ops := map2 _ _ _).
  assert (Lo : zlen ops = zlen b). { unfold ops. rewrite zlen_map2. assert (zlen (combine il el) = Z.min (zlen il) (zlen el)) by (unfold zlen; rewrite combine_length; lia). lia. }
  assert (E : exists tfs, sequence ops = Ok tfs /\ zlen tfs = zlen b /\
    forall c d ic ec, zth b c = Some d -> zth il c = Some ic -> zth el c = Some ec -> exists t, zth tfs c = Some t /\ supported A d ic (extrapolated ec) t).
  { rewrite Forall_forall in D. unfold ops in *. clear ops. revert Lo. clear Hi He Hl H N Ll.
    assert (Gen : forall b' cs, (forall d, In d b' -> dictionary d) -> zlen b' <= zlen cs ->
      exists tfs, sequence (map2 (fun d ie => bands_term A d (fst ie) (snd ie)) b' cs) = Ok tfs /\ zlen tfs = zlen b' /\
      forall c d ie, zth b' c = Some d -> zth cs c = Some ie -> exists t, zth tfs c = Some t /\ supported A d (fst ie) (extrapolated (snd ie)) t).
    { induction b' as [|d b' IH]; intros [|ie cs] Db L; try (rewrite zlen_cons, zlen_nil in L; pose proof (zlen_nonneg b'); lia).
      - exists []. split; [reflexivity|]. split; [reflexivity|]. intros c d0 ie0 E. now rewrite zth_nil in E.
      - exists []. split; [reflexivity|]. split; [reflexivity|]. intros c d0 ie0 E. now rewrite zth_nil in E.
      - rewrite !zlen_cons in L. destruct (bands_term_ok d (fst ie) (snd ie)) as (t & Et & St); [apply Db; now left|].
        destruct (IH cs) as (tfs & Es & Ls & Hs); [intros; apply Db; now right|lia|].
        exists (t :: tfs). cbn [map2 sequence]. rewrite Et. cbn [bind]. rewrite Es. split; [reflexivity|]. rewrite !zlen_cons. split; [lia|].
        intros c d' ie'. rewrite !zth_cons. destruct (Z.eqb_spec c 0); [intros [= <-] [= <-]; eauto|]. apply Hs. }
    intros _. destruct (Gen b (combine il el)) as (tfs & Es & Ls & Hs); auto.
    { unfold zlen in *. rewrite combine_length. lia. }
    exists tfs. split; auto. split; auto. intros c d ic ec Hd Hi He. apply (Hs c d (ic, ec)); auto. now apply zth_combine. }
  destruct E as (tfs & -> & Lt & Ht). cbn [bind]. eexists. split; [reflexivity|].
  unfold made. cbn [b_filter b_bands b_interpolations b_extrapolations]. unfold mk_filter, f_count. cbn [transfer_functions f_labels].
  rewrite Lt. split; auto. split; auto.
  assert (Sub : forall (l : list interpolation), zlen b <= zlen l -> subseq (between 0 (zlen b)) l = ztake (zlen b) l).
  { intros l Hln. unfold subseq. rewrite lower_between, upper_between by lia. unfold zdrop, ztake. rewrite Z.sub_0_r. reflexivity. }
  split; [apply sanitize_labels_ok; lia|]. rewrite !Sub by lia. rewrite !zlen_take. split; [lia|]. split; [lia|].
  intros c d Hd. pose proof (zth_range _ _ _ Hd) as R. destruct (Hi c) as (ic & Zi & Fi); auto. destruct (He c) as (ec & Ze & Fe); auto.
  destruct (Hl c) as (l & Zl & Fl); auto. destruct (Ht c d ic ec) as (t & Zt & St); auto. exists ic, ec, t, l.
  rewrite !zth_take, (proj2 (Z.ltb_lt c (zlen b))) by lia. repeat (split; auto). rewrite sanitize_enough; auto.
Qed.

End BandsClass.
